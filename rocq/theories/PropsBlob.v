(** C09 and C11-C21: tokens, heaps, blobs and signatures. *)
From Coq Require Import NArith ZArith String List Bool Lia.
From Coq.Strings Require Import Byte.
From Verif Require Import Base BinaryReader ParseSpec BaseFacts ReaderFacts Utf SpecBytes SpecUtf
  UtfProofs ReaderProofs Tables Blob SpecBlob BlobProofs.
Import ListNotations.
Open Scope N_scope.

(** ** C09 Metadata tokens *)

(** Full statement: for every row number.  It holds exactly for the row numbers that fit the
    24 bits of the token; [C09_large_row_refuted] covers the others. *)
Theorem C09_token_round_trip_partial : forall row t, row < 2 ^ 24 ->
  token_index (token_new row t) = row /\ token_table (token_new row t) = table_id t.
Proof.
  intros row t H.
  assert (T : table_id t < 64) by (destruct t; cbn; lia).
  assert (E : token_new row t = row + table_id t * 2 ^ 24).
  { unfold token_new. rewrite N.shiftl_mul_pow2. rewrite (N.mod_small row), (N.mod_small (_ * _)).
    - rewrite <- N.shiftl_mul_pow2. symmetry. rewrite N.add_nocarry_lxor.
      + apply N.lxor_lor. apply N.bits_inj_0. intro n. rewrite N.land_spec.
        destruct (N.lt_ge_cases n 24).
        * rewrite N.shiftl_spec_low by lia. apply andb_false_r.
        * rewrite N.bits_above_log2; [reflexivity|].
          destruct (N.eq_0_gt_0_cases row) as [->|Hp]; [cbn; lia|].
          apply N.log2_lt_pow2; auto. eapply N.lt_le_trans; [exact H|]. apply N.pow_le_mono_r; lia.
      + apply N.bits_inj_0. intro n. rewrite N.land_spec.
        destruct (N.lt_ge_cases n 24).
        * rewrite N.shiftl_spec_low by lia. apply andb_false_r.
        * rewrite N.bits_above_log2; [reflexivity|].
          destruct (N.eq_0_gt_0_cases row) as [->|Hp]; [cbn; lia|].
          apply N.log2_lt_pow2; auto. eapply N.lt_le_trans; [exact H|]. apply N.pow_le_mono_r; lia.
    - change (2 ^ 24) with 16777216 in *. change (2 ^ 32) with 4294967296. lia.
    - change (2 ^ 24) with 16777216 in *. change (2 ^ 32) with 4294967296. lia. }
  rewrite E. unfold token_index, token_table. split.
  - change 0xffffff with (N.ones 24). rewrite N.land_ones. rewrite N.mod_add by discriminate.
    now apply N.mod_small.
  - rewrite N.shiftr_land. change (N.shiftr 0xff000000 24) with (N.ones 8). rewrite N.land_ones.
    rewrite N.shiftr_div_pow2, N.div_add by discriminate. rewrite N.div_small by auto.
    rewrite N.mod_small; [lia|]. change (2 ^ 8) with 256. lia.
Qed.
Example C09_example : token_new 5 TMethodDef = 0x06000005 /\ 5 < 2 ^ 24.
Proof. split; [reflexivity|cbn; lia]. Qed.

Theorem C09_large_row_refuted : forall row t, 2 ^ 24 <= row -> token_index (token_new row t) <> row.
Proof.
  intros row t H. unfold token_index. change 0xffffff with (N.ones 24). rewrite N.land_ones.
  pose proof (N.mod_lt (token_new row t) (2 ^ 24) ltac:(discriminate)). lia.
Qed.
Example C09_large_row_example :
  token_index (token_new (2 ^ 24) TMethodDef) = 0 /\ token_table (token_new (2 ^ 24) TMethodDef) = 7.
Proof. split; reflexivity. Qed.

(** ** C11, C12 The string heap *)

(** The heap after a history of lookups. *)
Definition after_lookups (data : list byte) (history : list N) : strings_heap :=
  fold_left (fun h i => match strings_get i h with Ok _ h' => h' | _ => h end) history
            (strings_new data).

Lemma after_lookups_ok data history :
  sh_data (after_lookups data history) = data /\ cache_ok (after_lookups data history).
Proof.
  unfold after_lookups. assert (G : forall hist h, sh_data h = data -> cache_ok h ->
    let h' := fold_left (fun h i => match strings_get i h with Ok _ h' => h' | _ => h end) hist h in
    sh_data h' = data /\ cache_ok h').
  { induction hist as [|i hist IH]; intros h Hd Hc; cbn [fold_left]; [auto|].
    destruct (strings_get_run h i Hc) as (h' & E & Hd' & Hc'). rewrite E. apply IH; [congruence|assumption]. }
  apply G; [reflexivity|apply cache_ok_new].
Qed.

Lemma lookup_after data history i :
  exists h', strings_get i (after_lookups data history) = Ok (answer data i) h'.
Proof.
  destruct (after_lookups_ok data history) as [Hd Hc].
  destruct (strings_get_run _ i Hc) as (h' & E & _). rewrite Hd in E. eauto.
Qed.

(** Whatever was looked up before: NUL-terminated UTF-8 text is found, ... *)
Theorem C11_text_found : forall data history i text,
  bytes_at data i (text ++ [x00]) -> ~ In x00 text -> is_utf8 text ->
  exists h', strings_get i (after_lookups data history) = Ok (Some text) h'.
Proof.
  intros data history i text (pre & post & -> & <-) Hn Hu.
  destruct (lookup_after (pre ++ (text ++ [x00]) ++ post) history (len pre)) as (h' & E).
  exists h'. rewrite E. f_equal. unfold answer.
  destruct (N.ltb_spec (len (pre ++ (text ++ [x00]) ++ post)) (len pre)) as [C|_]; [slen; lia|].
  rewrite skipn_app_len. rewrite <- !app_assoc. cbn [app]. rewrite nul_position_app by auto.
  rewrite sub_list_app. now rewrite (proj2 (utf8_valid_spec text) Hu).
Qed.
Example C11_text_found_example :
  bytes_at [x00; x41; x42; x00] 1 ([x41; x42] ++ [x00]) /\ ~ In x00 [x41; x42] /\
  is_utf8 [x41; x42] /\
  exists h', strings_get 1 (after_lookups [x00; x41; x42; x00] [2; 1; 9]) = Ok (Some [x41; x42]) h'.
Proof.
  split; [exists [x00], []; auto|]. split; [intros [H|[H|[]]]; discriminate|].
  split; [apply utf8_valid_spec; reflexivity|]. eexists. reflexivity.
Qed.

(** ... and nothing is found at an index outside the heap, ... *)
Theorem C11_outside_is_none : forall data history i, len data <= i ->
  exists h', strings_get i (after_lookups data history) = Ok None h'.
Proof.
  intros data history i H. destruct (lookup_after data history i) as (h' & E).
  exists h'. rewrite E. f_equal. unfold answer. destruct (len data <? i); auto.
  rewrite skipn_all2; [reflexivity|]. unfold len in H. lia.
Qed.
Example C11_outside_example : len [x41; x00] <= 2. Proof. unfold len. cbn. lia. Qed.

(** ... where no NUL follows, ... *)
Theorem C11_unterminated_is_none : forall data history i tail,
  bytes_at data i tail -> len data = i + len tail -> ~ In x00 tail ->
  exists h', strings_get i (after_lookups data history) = Ok None h'.
Proof.
  intros data history i tail (pre & post & -> & <-) Hl Hn.
  destruct (lookup_after (pre ++ tail ++ post) history (len pre)) as (h' & E).
  exists h'. rewrite E. f_equal. unfold answer.
  destruct (N.ltb_spec (len (pre ++ tail ++ post)) (len pre)) as [C|_]; [slen; lia|].
  rewrite skipn_app_len. destruct post; [|slen; lia].
  rewrite app_nil_r. now rewrite nul_position_none.
Qed.
Example C11_unterminated_example : bytes_at [x00; x41] 1 [x41] /\ len [x00; x41] = 1 + len [x41].
Proof. split; [exists [x00], []; auto|reflexivity]. Qed.

(** ... and where the text is not UTF-8. *)
Theorem C11_not_utf8_is_none : forall data history i text,
  bytes_at data i (text ++ [x00]) -> ~ In x00 text -> ~ is_utf8 text ->
  exists h', strings_get i (after_lookups data history) = Ok None h'.
Proof.
  intros data history i text (pre & post & -> & <-) Hn Hu.
  destruct (lookup_after (pre ++ (text ++ [x00]) ++ post) history (len pre)) as (h' & E).
  exists h'. rewrite E. f_equal. unfold answer.
  destruct (N.ltb_spec (len (pre ++ (text ++ [x00]) ++ post)) (len pre)) as [C|_]; [slen; lia|].
  rewrite skipn_app_len. rewrite <- !app_assoc. cbn [app]. rewrite nul_position_app by auto.
  rewrite sub_list_app. destruct (utf8_valid text) eqn:V; [|reflexivity].
  apply utf8_valid_spec in V. contradiction.
Qed.
Example C11_not_utf8_example : ~ is_utf8 [xff] /\ bytes_at [xff; x00] 0 ([xff] ++ [x00]).
Proof.
  split; [intro H; apply utf8_valid_spec in H; discriminate|exists [], []; auto].
Qed.

(** Every lookup answers (no panic), for every heap, history and index. *)
Theorem C11_lookup_total : forall data history i,
  exists o h', strings_get i (after_lookups data history) = Ok o h'.
Proof. intros. destruct (lookup_after data history i) as (h' & E). eauto. Qed.
Example C11_lookup_total_example :
  exists h', strings_get 7 (after_lookups [] [1; 2]) = Ok None h'.
Proof. eexists. reflexivity. Qed.

(** The answer after any history is the answer of a fresh heap. *)
Theorem C12_cache_transparent : forall data history i,
  exists o h1 h2,
    strings_get i (after_lookups data history) = Ok o h1 /\
    strings_get i (strings_new data) = Ok o h2.
Proof.
  intros. destruct (lookup_after data history i) as (h1 & E1).
  destruct (lookup_after data [] i) as (h2 & E2). eauto 6.
Qed.
Example C12_example : exists h1 h2,
  strings_get 1 (after_lookups [x00; x41; x42; x00] [2; 1; 1]) = Ok (Some [x41; x42]) h1 /\
  strings_get 1 (strings_new [x00; x41; x42; x00]) = Ok (Some [x41; x42]) h2.
Proof. eexists; eexists; split; reflexivity. Qed.

(** ** C13 Blob readers *)

(** A reader for the blob at [len pre] starts at the blob's first byte and has exactly the
    blob's bytes, whatever surrounds it. *)
Theorem C13_reader_is_the_blob : forall p pre blob post,
  len blob < 2 ^ 29 -> slice_ok (pre ++ compress (len blob) ++ blob ++ post) ->
  blob_heap_reader p (pre ++ compress (len blob) ++ blob ++ post) (len pre) =
  Ok (mkReader blob 0) tt.
Proof. intros. eapply blob_reader_at; eauto. now apply parses_compress. Qed.
Example C13_example :
  blob_heap_reader Debug [x00; x02; x06; x08; x55] 1 = Ok (mkReader [x06; x08] 0) tt.
Proof. reflexivity. Qed.

(** Whenever a reader is handed out, its bytes are those that a length prefix at the given
    offset covers. *)
Theorem C13_only_the_blob : forall p heap h r, slice_ok heap ->
  blob_heap_reader p heap h = Ok r tt ->
  exists pre prefix blob post, heap = pre ++ prefix ++ blob ++ post /\ len pre = h /\
    some_form prefix (len blob) /\ r = mkReader blob 0.
Proof.
  intros p heap h r Hs H. destruct (blob_reader_inv p heap h r Hs H) as (a & b & c & d & ? & ? & ? & ?).
  exists a, b, c, d. auto.
Qed.
Example C13_only_the_blob_example : exists r,
  blob_heap_reader Debug [x00; x02; x06; x08; x55] 1 = Ok r tt.
Proof. eexists. reflexivity. Qed.

(** Non-interference: no decoder run on the reader can tell two heaps apart that store the
    same blob at possibly different places. *)
Theorem C13_non_interference : forall p A (decode : M reader A) pre1 pre2 blob post1 post2,
  len blob < 2 ^ 29 ->
  slice_ok (pre1 ++ compress (len blob) ++ blob ++ post1) ->
  slice_ok (pre2 ++ compress (len blob) ++ blob ++ post2) ->
  exists r1 r2,
    blob_heap_reader p (pre1 ++ compress (len blob) ++ blob ++ post1) (len pre1) = Ok r1 tt /\
    blob_heap_reader p (pre2 ++ compress (len blob) ++ blob ++ post2) (len pre2) = Ok r2 tt /\
    decode r1 = decode r2.
Proof.
  intros. exists (mkReader blob 0), (mkReader blob 0).
  split; [now apply C13_reader_is_the_blob|]. split; [now apply C13_reader_is_the_blob|reflexivity].
Qed.
Example C13_non_interference_example : len [x06; x08] < 2 ^ 29 /\
  slice_ok ([x00] ++ compress (len [x06; x08]) ++ [x06; x08] ++ [x55]).
Proof. split; unfold slice_ok, len; cbn; lia. Qed.

(** A length prefix that runs past the end of the heap, or an offset outside the heap, stops
    the program: no reader is handed out. *)
Theorem C13_truncated_blob_panics : forall p pre n rest,
  n < 2 ^ 29 -> len rest < n -> slice_ok (pre ++ compress n ++ rest) ->
  exists w, blob_heap_reader p (pre ++ compress n ++ rest) (len pre) = Panic w.
Proof.
  intros p pre n rest Hn Hl Hs. unfold blob_heap_reader.
  destruct (N.ltb_spec (len (pre ++ compress n ++ rest)) (len pre)) as [C|_]; [eauto|].
  rewrite skipn_app_len. unfold blob_reader_new.
  pose proof (parses_compress p n Hn [] rest) as P. cbn [app] in P. rewrite len_nil in P. rewrite P.
  2:{ unfold slice_ok in *. rewrite pow63 in *. slen. lia. }
  cbn [rpos]. destruct (N.ltb_spec (len (compress n ++ rest)) (0 + len (compress n) + n)); [eauto|].
  slen. lia.
Qed.
Example C13_truncated_example : blob_heap_reader Release [x05; x01] 0 = Panic "slice index out of range".
Proof. reflexivity. Qed.

(** ** C14, C15 Compressed integers *)

Theorem C14_compressed_round_trip : forall p n, n < 2 ^ 29 ->
  parses (read_compressed_u32 p) (compress n) n.
Proof. exact parses_compress. Qed.
Example C14_example : compress 0x3fff = [xbf; xff] /\ compress 0x4000 = [xc0; x00; x40; x00] /\
  compress 0x7f = [x7f] /\ compress 0x80 = [x80; x80].
Proof. repeat split; reflexivity. Qed.

(** The encoding has 1, 2 or 4 bytes, as the ranges of II.23.2 demand. *)
Theorem C14_encoding_length : forall n, n < 2 ^ 29 ->
  len (compress n) = if n <? 2 ^ 7 then 1 else if n <? 2 ^ 14 then 2 else 4.
Proof.
  intros n _. unfold compress. change (2 ^ 7) with 0x80. change (2 ^ 14) with 0x4000.
  destruct (n <? 0x80); [reflexivity|]. destruct (n <? 0x4000); reflexivity.
Qed.
Example C14_encoding_length_example : len (compress 0x3fff) = 2. Proof. reflexivity. Qed.

(** From any position in any buffer: a value below 2^30 whose encoding is what was consumed,
    or an error with the cursor where it was. *)
Theorem C15_compressed_total : forall p r, in_bounds r ->
  match read_compressed_u32 p r with
  | Ok v r' => v < 2 ^ 30 /\ rdata r' = rdata r /\ rpos r' <= len (rdata r) /\
      exists form, bytes_at (rdata r) (rpos r) form /\ some_form form v /\
                   rpos r' = rpos r + len form
  | Err _ r' => r' = r
  | _ => False
  end.
Proof.
  intros p r Hr. pose proof (rcu_run p r Hr) as H.
  destruct (read_compressed_u32 p r); auto; tauto.
Qed.
Example C15_example : in_bounds (mkReader [xff; x01] 0) /\
  read_compressed_u32 Debug (mkReader [xff; x01] 0) = Err blob_eof (mkReader [xff; x01] 0) /\
  read_compressed_u32 Debug (mkReader [xff; xff; xff; xff] 0) =
  Ok (2 ^ 30 - 1) (mkReader [xff; xff; xff; xff] 4).
Proof. split; [split; unfold slice_ok, len; cbn; lia|split; reflexivity]. Qed.

(** ** C16 User strings *)

(** [tl] is the flag byte, or nothing. *)
Theorem C16_user_string : forall p us tl,
  Forall (fun u => u < 2 ^ 16) us -> len tl < 2 -> slice_ok (units_le us ++ tl) ->
  exists r, read_utf16_str p (mkReader (units_le us ++ tl) 0) = Ok us r.
Proof. intros. eexists. now apply utf16_run. Qed.
Example C16_example : exists r,
  read_utf16_str Debug (mkReader (units_le [0x48; 0xd83d; 0xde00] ++ [x01]) 0) =
  Ok [0x48; 0xd83d; 0xde00] r.
Proof. eexists. reflexivity. Qed.

(** From the heap: the blob of the string and the code units in it. *)
Theorem C16_user_string_in_heap : forall p pre us fl post,
  Forall (fun u => u < 2 ^ 16) us -> 2 * len us + 1 < 2 ^ 29 ->
  slice_ok (pre ++ compress (2 * len us + 1) ++ (units_le us ++ [fl]) ++ post) ->
  exists r r',
    blob_heap_reader p (pre ++ compress (2 * len us + 1) ++ (units_le us ++ [fl]) ++ post) (len pre)
      = Ok r tt /\
    read_utf16_str p r = Ok us r'.
Proof.
  intros p pre us fl post Hu Hn Hs.
  assert (L : len (units_le us ++ [fl]) = 2 * len us + 1) by (slen; rewrite len_units; lia).
  rewrite <- L in *. exists (mkReader (units_le us ++ [fl]) 0). eexists.
  split; [now apply C13_reader_is_the_blob|]. apply utf16_run; auto.
  - unfold len. cbn. lia.
  - unfold slice_ok in *. rewrite pow63 in *. slen. lia.
Qed.
Example C16_heap_example : 2 * len [0x48; 0xd83d; 0xde00] + 1 < 2 ^ 29.
Proof. unfold len. cbn. lia. Qed.

(** ** C17 Element types *)

(** Full statement: for every type of the grammar.  The decoder knows neither function
    pointers nor custom modifiers and misreads non-zero lower bounds of arrays; without these
    ([plain], [zero_based]) every type of any depth is decoded. *)
Theorem C17_element_type_partial : forall p t, type_ok t -> plain t = true -> zero_based t = true ->
  parses (read_element_type p) (enc_type t) (api_type t).
Proof. intros. now apply parses_faithful. Qed.
Example C17_example :
  let t := TGenericInst (TClass InTypeRef 9) [TSzArray (TSimple PI4); TPtr (TMVar 200)] in
  type_ok t /\ plain t = true /\ zero_based t = true /\
  enc_type t = [x15; x12; x25; x02; x1d; x08; x0f; x1e; x80; xc8].
Proof. cbn. unfold named_ok. repeat split; cbn; lia. Qed.

(** Exactly those types are decoded correctly. *)
Theorem C17_element_type_exact : forall p t, type_ok t -> slice_ok (enc_type t) ->
  (parses (read_element_type p) (enc_type t) (api_type t) <-> plain t = true /\ zero_based t = true).
Proof. exact parses_type_exact. Qed.
Example C17_exact_example :
  let t := TArray (TSimple PI4) {| rank := 1; sizes := [3]; lower := [1%Z] |} in
  plain t = true /\ zero_based t = false /\ enc_type t = [x14; x08; x01; x01; x03; x01; x02].
Proof. repeat split; reflexivity. Qed.

(** A type with a function pointer or a custom modifier anywhere inside is refused. *)
Theorem C17_function_pointer_refuted : forall p t pre rest, type_ok t -> plain t = false ->
  slice_ok (pre ++ enc_type t ++ rest) ->
  exists e r, read_element_type p (mkReader (pre ++ enc_type t ++ rest) (len pre)) = Err e r.
Proof. intros p t pre rest H1 H2 H3. exact (rejects_type p t H1 H2 pre rest H3). Qed.
Example C17_function_pointer_example :
  let t := TSzArray (TFnPtr x00 (TSimple PVoid) [TSimple PI4]) in
  type_ok t /\ plain t = false /\ enc_type t = [x1d; x1b; x00; x01; x01; x08].
Proof. cbn. repeat split; reflexivity. Qed.

(** Type references: every tag and row number; the fourth tag is refused. *)
Theorem C17_type_reference : forall p tab row, 4 * row + 3 < 2 ^ 29 ->
  parses (read_type_def_or_ref p) (enc_named tab row) (named_ref tab row).
Proof. exact parses_named. Qed.
Example C17_type_reference_example : enc_named InTypeSpec 18 = [x4a] /\ 4 * 18 + 3 < 2 ^ 29.
Proof. split; [reflexivity|cbn; lia]. Qed.

Theorem C17_bad_reference_tag : forall p row pre rest, 4 * row + 3 < 2 ^ 29 ->
  slice_ok (pre ++ compress (4 * row + 3) ++ rest) ->
  exists e r, read_type_def_or_ref p (mkReader (pre ++ compress (4 * row + 3) ++ rest) (len pre)) = Err e r.
Proof.
  intros p row pre rest H Hs. unfold read_type_def_or_ref, bind.
  rewrite (parses_compress p _ H pre rest Hs). cbv zeta. rewrite land3.
  replace ((4 * row + 3) mod 4) with 3 by dlia. eexists; eexists; reflexivity.
Qed.
Example C17_bad_reference_tag_example : compress (4 * 1 + 3) = [x07]. Proof. reflexivity. Qed.

(** ** C18 Termination and totality *)

(** Full statement: also for field signatures and local-variable signatures.  Field signatures
    with a custom modifier stop the program ([C18_field_signature_refuted]);
    local-variable signatures are in PropsBody. *)
Theorem C18_signatures_total_partial : forall p,
  total (read_element_type p) /\ total (read_array_shape p) /\ total (read_type_def_or_ref p) /\
  total (read_method_signature p) /\ total (read_property_signature p) /\
  total (read_method_spec_sig p) /\ total (read_type_spec_sig p) /\
  total (read_marshal_descriptor p).
Proof.
  intro p. repeat split.
  - apply total_type. - apply total_shape. - apply total_named. - apply total_method_sig.
  - apply total_property_sig. - apply total_method_inst. - apply total_type. - apply total_marshal.
Qed.
Example C18_example : in_bounds (mkReader [x1d; x1d; x1d] 0) /\
  read_element_type Debug (mkReader [x1d; x1d; x1d] 0) = Err blob_eof (mkReader [x1d; x1d; x1d] 3).
Proof. split; [split; unfold slice_ok, len; cbn; lia|reflexivity]. Qed.

(** A field signature: the only way to panic is a custom modifier after the 0x06. *)
Theorem C18_field_signature_partial : forall p d, slice_ok d ->
  (forall b rest, d = x06 :: b :: rest -> b <> x1f /\ b <> x20) ->
  match read_field_signature p (mkReader d 0) with
  | Ok _ r' | Err _ r' => rdata r' = d /\ rpos r' <= len d
  | _ => False
  end.
Proof.
  intros p d Hs H. apply field_sig_run; auto. intros b rest E. destruct (H b rest E) as [N1 N2].
  split; intro C; [apply N1|apply N2]; apply bn_inj; exact C.
Qed.
Example C18_field_signature_example : forall b rest, [x06; x08] = x06 :: b :: rest -> b <> x1f /\ b <> x20.
Proof. intros b rest E. injection E as <- <-. split; discriminate. Qed.

Theorem C18_field_signature_refuted : forall p tab row t required,
  named_ok row -> slice_ok (enc_field_sig (TModified required tab row t)) ->
  exists w, read_field_signature p (mkReader (enc_field_sig (TModified required tab row t)) 0) = Panic w.
Proof.
  intros p tab row t required Hr Hs. unfold enc_field_sig in *. cbn [enc_type] in *.
  apply field_sig_panics; auto. destruct required; auto.
Qed.
Example C18_field_signature_refuted_example :
  enc_field_sig (TModified true InTypeRef 5 (TSimple PI4)) = [x06; x1f; x15; x08] /\ named_ok 5.
Proof. split; [reflexivity|unfold named_ok; cbn; lia]. Qed.

(** ** C19 Array shapes *)

(** Full statement: with any lower bounds.  Rank and sizes are always right; the lower bounds
    come back as the rotated words of the signed encoding, undecoded. *)
Theorem C19_array_shape_partial : forall p s, shape_ok s ->
  parses (read_array_shape p) (enc_shape s)
    {| as_rank := rank s; as_sizes := sizes s;
       as_lower_bounds := map (fun z => rotated (signed_bits z) z) (lower s) |}.
Proof. exact parses_shape. Qed.
Example C19_example :
  let s := {| rank := 3; sizes := [4; 300]; lower := [0%Z; (-3)%Z; 2%Z] |} in
  shape_ok s /\ enc_shape s = [x03; x02; x04; x81; x2c; x03; x00; x7b; x04].
Proof.
  split; [|reflexivity]. cbn. unfold shape_ok. cbn [rank sizes lower].
  repeat split; unfold len; cbn; try lia; repeat constructor; lia.
Qed.

(** The shape comes back right if and only if all its lower bounds are zero. *)
Theorem C19_array_shape_exact : forall p s, shape_ok s -> slice_ok (enc_shape s) ->
  (parses (read_array_shape p) (enc_shape s) (api_shape s) <-> Forall (fun z => z = 0%Z) (lower s)).
Proof.
  intros p s Ho Hs.
  assert (E : forallb (Z.eqb 0) (lower s) = true <-> Forall (fun z => z = 0%Z) (lower s)).
  { rewrite forallb_forall, Forall_forall. split; intros H z Hz; specialize (H z Hz);
      [apply Z.eqb_eq in H; auto|subst; reflexivity]. }
  rewrite <- E, <- raw_shape_exact by auto. split.
  - intro H. eapply parses_unique; [exact Hs|now apply parses_shape|exact H].
  - intros <-. now apply parses_shape.
Qed.
Example C19_exact_example :
  let s := {| rank := 2; sizes := [4; 300]; lower := [0%Z; 0%Z] |} in
  shape_ok s /\ slice_ok (enc_shape s) /\ Forall (fun z => z = 0%Z) (lower s).
Proof.
  cbn. unfold shape_ok, slice_ok. cbn [rank sizes lower].
  repeat split; unfold len; cbn; try lia; repeat constructor; lia.
Qed.

(** Lower bound 1 is read as 2, lower bound -1 as 127. *)
Theorem C19_lower_bound_refuted : forall p,
  (exists r, read_array_shape p (mkReader (enc_shape {| rank := 1; sizes := []; lower := [1%Z] |}) 0)
    = Ok {| as_rank := 1; as_sizes := []; as_lower_bounds := [2] |} r) /\
  (exists r, read_array_shape p (mkReader (enc_shape {| rank := 1; sizes := []; lower := [(-1)%Z] |}) 0)
    = Ok {| as_rank := 1; as_sizes := []; as_lower_bounds := [127] |} r).
Proof. intros []; split; eexists; reflexivity. Qed.

(** ** C20 Signatures *)

(** Full statement: also for signatures with custom modifiers, function pointers, non-zero lower
    bounds, and call sites with variable arguments. *)
Theorem C20_method_signature_partial : forall p m, method_sig_ok m -> ms_extra m = [] ->
  Forall (fun t => plain t = true /\ zero_based t = true) (ms_result m :: ms_args m) ->
  parses (read_method_signature p) (enc_method_sig m) (api_method_sig m).
Proof.
  intros p m H He Hf. inversion Hf as [|? ? [F1 F2] F3]; subst.
  destruct H as (A & B & C & D & E). apply parses_method_sig; auto.
  - repeat split; auto.
  - repeat split; auto.
  - rewrite Forall_forall in *. intros t Ht. destruct (F3 t Ht). repeat split; auto.
Qed.
Example C20_method_example :
  let m := {| ms_has_this := true; ms_explicit := false; ms_is_vararg := false; ms_generic := Some 2;
              ms_result := TSimple PVoid; ms_args := [TMVar 1; TByRef (TSimple PI8)]; ms_extra := [] |} in
  method_sig_ok m /\ enc_method_sig m = [x30; x02; x02; x01; x1e; x01; x10; x0a].
Proof. cbn. unfold method_sig_ok. cbn. unfold len. cbn. repeat split; try lia; repeat constructor. Qed.

(** At a call site with variable arguments the SENTINEL is taken for one of the counted
    parameters: the last argument is lost and the cursor stops before the end. *)
Theorem C20_vararg_call_site_refuted : forall p m, method_sig_ok m -> ms_extra m <> [] ->
  Forall (fun t => plain t = true /\ zero_based t = true) (ms_result m :: ms_args m ++ ms_extra m) ->
  slice_ok (enc_method_sig m) ->
  exists s pos, read_method_signature p (mkReader (enc_method_sig m) 0) =
                Ok s (mkReader (enc_method_sig m) pos) /\
    pos < len (enc_method_sig m) /\
    sg_params s = map api_type (ms_args m) ++ EVarargSentinel :: map api_type (removelast (ms_extra m)).
Proof.
  intros p m H He Hf Hs. inversion Hf as [|? ? [F1 F2] F3]; subst. apply Forall_app in F3 as [F3 F4].
  destruct H as (A & B & C & D & E).
  destruct (call_site_run p m) as (pos & R & L); auto.
  - repeat split; auto.
  - repeat split; auto.
  - rewrite Forall_forall in *. intros t Ht. destruct (F3 t Ht). repeat split; auto.
  - rewrite Forall_forall in *. intros t Ht. destruct (F4 t Ht). repeat split; auto.
  - exists (api_call_site m), pos. auto.
Qed.
Example C20_vararg_example :
  let m := {| ms_has_this := false; ms_explicit := false; ms_is_vararg := true; ms_generic := None;
              ms_result := TSimple PVoid; ms_args := [TSimple PString];
              ms_extra := [TSimple PI4; TSimple PR8] |} in
  method_sig_ok m /\ enc_method_sig m = [x05; x03; x01; x0e; x41; x08; x0d].
Proof. cbn. unfold method_sig_ok. cbn. unfold len. cbn. repeat split; try lia; repeat constructor. Qed.

Theorem C20_field_signature_partial : forall p t, type_ok t -> plain t = true -> zero_based t = true ->
  parses (read_field_signature p) (enc_field_sig t) (api_type t).
Proof. intros. apply parses_field_sig. repeat split; auto. Qed.
Example C20_field_example : enc_field_sig (TSzArray (TClass InTypeDef 40)) = [x06; x1d; x12; x80; xa0].
Proof. reflexivity. Qed.

Theorem C20_property_signature_partial : forall p inst t args,
  Forall (fun t => type_ok t /\ plain t = true /\ zero_based t = true) (t :: args) ->
  len args < 2 ^ 29 ->
  parses (read_property_signature p) (enc_property_sig inst t args)
    {| ps_instance := inst; ps_return_type := api_type t; ps_params := map api_type args |}.
Proof. intros p inst t args H Hl. inversion H; subst. now apply parses_property_sig. Qed.
Example C20_property_example :
  enc_property_sig true (TSimple PString) [TSimple PI4] = [x28; x01; x0e; x08].
Proof. reflexivity. Qed.

Theorem C20_method_spec_partial : forall p args,
  Forall (fun t => type_ok t /\ plain t = true /\ zero_based t = true) args -> len args < 2 ^ 29 ->
  parses (read_method_spec_sig p) (enc_method_inst args) (map api_type args).
Proof. exact parses_method_inst. Qed.
Example C20_method_spec_example : enc_method_inst [TSimple PI4; TVar 0] = [x0a; x02; x08; x13; x00].
Proof. reflexivity. Qed.

Theorem C20_type_spec_partial : forall p t, type_ok t -> plain t = true -> zero_based t = true ->
  parses (read_type_spec_sig p) (enc_type t) (api_type t).
Proof. intros. now apply parses_faithful. Qed.
Example C20_type_spec_example : enc_type (TPtr (TSimple PVoid)) = [x0f; x01]. Proof. reflexivity. Qed.

(** ** C21 Marshalling descriptors *)

(** The blob holds exactly the descriptor, so that trailing components may be absent. *)
Theorem C21_marshalling : forall p m, marshal_ok m ->
  read_marshal_descriptor p (mkReader (enc_marshal m) 0) =
  Ok (api_marshal m) (mkReader (enc_marshal m) (len (enc_marshal m))).
Proof. exact marshal_run. Qed.
Example C21_example :
  let m := NArrayParamNum MsInt 0 300 in
  marshal_ok m /\ enc_marshal m = [x2a; x07; x00; x81; x2c] /\
  api_marshal m = MdArray MsInt None (Some 300).
Proof. cbn. repeat split; lia. Qed.

(** A byte that is no native type known to the library is an error. *)
Theorem C21_unknown_native_type : forall p b rest, slice_ok (b :: rest) ->
  b <> x2a -> (forall s, b <> native_code s) ->
  exists e r, read_marshal_descriptor p (mkReader (b :: rest) 0) = Err e r.
Proof.
  intros p b rest Hs Hb Hn. unfold read_marshal_descriptor, bind.
  pose proof (peek1_at p blob_eof b [] rest Hs) as P. cbn [app] in P. rewrite len_nil in P. rewrite P.
  destruct (N.eqb_spec (bn b) 0x2a) as [E|_]; [exfalso; apply Hb, bn_inj; exact E|].
  unfold read_marshal_scalar.
  pose proof (parses_rd_bytes p 1 blob_eof [b] eq_refl [] rest Hs) as R. cbn [app] in R.
  rewrite len_nil in R. unfold bind. rewrite R. replace (le_dec [b]) with (bn b) by (cbn [le_dec]; lia).
  set (all := [MsBool; MsSByte; MsByte; MsShort; MsUShort; MsInt; MsUInt; MsLong; MsULong; MsFloat;
    MsDouble; MsString; MsWString; MsNativeInt; MsNativeUInt; MsFunctionPointer; MsUnknown]).
  assert (X : existsb (fun s => Byte.eqb b (native_code s)) all = false).
  { destruct (existsb _ all) eqn:X; [|reflexivity]. apply existsb_exists in X as (s & _ & Es).
    apply Byte.byte_dec_bl in Es. now apply Hn in Es. }
  clear - X.
  assert (E : (exists r, match bn b with
    | 0x2 => ret MsBool | 0x3 => ret MsSByte | 0x4 => ret MsByte | 0x5 => ret MsShort
    | 0x6 => ret MsUShort | 0x7 => ret MsInt | 0x8 => ret MsUInt | 0x9 => ret MsLong
    | 0xa => ret MsULong | 0xb => ret MsFloat | 0xc => ret MsDouble | 0x14 => ret MsString
    | 0x15 => ret MsWString | 0x1f => ret MsNativeInt | 0x20 => ret MsNativeUInt
    | 0x26 => ret MsFunctionPointer | 0x50 => ret MsUnknown
    | _ => fail "Invalid marshalling descriptor"
    end (mkReader (b :: rest) (0 + len [b])) = Err "Invalid marshalling descriptor" r)).
  { revert X. destruct b; intro X; first [discriminate X | eexists; reflexivity]. }
  destruct E as (r & E). rewrite E. eauto.
Qed.
Example C21_unknown_example : x1b <> x2a /\ forall s, x1b <> native_code s.
Proof. split; [discriminate|intros []; discriminate]. Qed.

Print Assumptions C09_token_round_trip_partial.
Print Assumptions C09_large_row_refuted.
Print Assumptions C11_text_found.
Print Assumptions C11_outside_is_none.
Print Assumptions C11_unterminated_is_none.
Print Assumptions C11_not_utf8_is_none.
Print Assumptions C11_lookup_total.
Print Assumptions C12_cache_transparent.
Print Assumptions C13_reader_is_the_blob.
Print Assumptions C13_only_the_blob.
Print Assumptions C13_non_interference.
Print Assumptions C13_truncated_blob_panics.
Print Assumptions C14_compressed_round_trip.
Print Assumptions C14_encoding_length.
Print Assumptions C15_compressed_total.
Print Assumptions C16_user_string.
Print Assumptions C16_user_string_in_heap.
Print Assumptions C17_element_type_partial.
Print Assumptions C17_element_type_exact.
Print Assumptions C17_function_pointer_refuted.
Print Assumptions C17_type_reference.
Print Assumptions C17_bad_reference_tag.
Print Assumptions C18_signatures_total_partial.
Print Assumptions C18_field_signature_partial.
Print Assumptions C18_field_signature_refuted.
Print Assumptions C19_array_shape_partial.
Print Assumptions C19_array_shape_exact.
Print Assumptions C19_lower_bound_refuted.
Print Assumptions C20_method_signature_partial.
Print Assumptions C20_vararg_call_site_refuted.
Print Assumptions C20_field_signature_partial.
Print Assumptions C20_property_signature_partial.
Print Assumptions C20_method_spec_partial.
Print Assumptions C20_type_spec_partial.
Print Assumptions C21_marshalling.
Print Assumptions C21_unknown_native_type.

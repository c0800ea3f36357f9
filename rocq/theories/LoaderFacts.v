(** What the loader makes of the rows of the metadata tables. *)
From Coq Require Import NArith String List Bool Lia Arith.
From Coq.Strings Require Import Byte.
From Verif Require Import Base BaseFacts BinaryReader ParseSpec ReaderFacts Attributes Tables TablesProofs Blob Metadata
  Runtime Loader SpecBytes SpecUtf Utf UtfProofs SpecBlob BlobProofs PropsBlob SpecPe Pe PeProofs SpecMetadata MetadataProofs SpecRuntime
  RuntimeInv SpecHistory HistoryProofs InterpInv SpecBody BodyProofs TypeFacts LayoutFacts SpecTypes SpecLoader.
Import ListNotations.
Open Scope N_scope.

(** ** Texts *)

Lemma nul_split : forall d, In x00 d -> exists text post, d = text ++ x00 :: post /\ ~ In x00 text.
Proof.
  induction d as [|b d IH]; intros H; [destruct H|]. destruct (Byte.byte_eq_dec b x00) as [->|N].
  - exists [], d. split; [reflexivity|]. intros [].
  - destruct H as [H|H]; [congruence|]. destruct (IH H) as (text & post & -> & NI). exists (b :: text), post.
    split; [reflexivity|]. intros [X|X]; [congruence|contradiction].
Qed.
Lemma string_at_inv md h t : string_at md h = Some t -> heap_text md h t.
Proof.
  intro E. set (d := m_strings md).
  assert (Q : forall o h', strings_get h (after_lookups d []) = Ok o h' -> o = Some t).
  { intros o h' X. unfold string_at in E. cbn [after_lookups fold_left] in X. subst d. rewrite X in E. exact E. }
  destruct (N.le_gt_cases (len d) h) as [L|L].
  { destruct (C11_outside_is_none d [] h L) as [h' X]. apply Q in X. discriminate. }
  assert (S : d = firstn (N.to_nat h) d ++ skipn (N.to_nat h) d) by (symmetry; apply firstn_skipn).
  assert (Lf : len (firstn (N.to_nat h) d) = h) by (unfold len in *; rewrite firstn_length; lia).
  destruct (in_dec Byte.byte_eq_dec x00 (skipn (N.to_nat h) d)) as [I|I].
  - destruct (nul_split _ I) as (text & post & Es & NI).
    assert (B : bytes_at d h (text ++ [x00])).
    { exists (firstn (N.to_nat h) d), post. split; [|exact Lf]. rewrite <- app_assoc. cbn [app]. rewrite <- Es. exact S. }
    destruct (utf8_valid text) eqn:V.
    + apply utf8_valid_spec in V. destruct (C11_text_found d [] h text B NI V) as [h' X]. apply Q in X. injection X as <-.
      split; [exact B|]. split; assumption.
    + destruct (C11_not_utf8_is_none d [] h text B NI) as [h' X]; [|apply Q in X; discriminate].
      intro U. apply utf8_valid_spec in U. congruence.
  - destruct (C11_unterminated_is_none d [] h (skipn (N.to_nat h) d)) as [h' X]; auto.
    + exists (firstn (N.to_nat h) d), []. rewrite app_nil_r. auto.
    + rewrite S at 1. unfold len in *. rewrite app_length. lia.
    + apply Q in X. discriminate.
Qed.

Lemma pures {S A} (m : M S A) (a : A) (s s' : S) : pure m -> m s = Ok a s' -> s' = s.
Proof. intros H E. specialize (H s). now rewrite E in H. Qed.

(** ** Rows *)

Lemma row_at_inv {A} p (rows : list A) k d s s' : len rows < 2 ^ 64 -> row_at p rows k s = Ok d s' -> s' = s /\ row_of rows k d.
Proof.
  unfold row_at, lift, table_index. intros L E. destruct (u_sub p 64 k 1) as [i|] eqn:U; [|discriminate].
  destruct (nth_error rows (N.to_nat i)) as [x|] eqn:N; [|discriminate]. injection E as -> <-. split; [reflexivity|].
  pose proof (nth_lt _ _ _ N) as Li. unfold u_sub in U. destruct (1 <=? k) eqn:C.
  - apply N.leb_le in C. injection U as <-. split; assumption.
  - apply N.leb_gt in C. assert (k = 0) as -> by lia. destruct p; [discriminate|].
    exfalso. unfold len in L. assert (i < 2 ^ 64 - 1) by lia.
    assert (i = 2 ^ 64 - 1) by (injection U as <-; vm_compute; reflexivity). lia.
Qed.
Lemma string_run {S} md h n (s s' : S) : unwrap (string_at md h) s = Ok n s' -> s' = s /\ heap_text md h n.
Proof.
  unfold unwrap. destruct (string_at md h) as [t|] eqn:E; [|discriminate]. intro X. injection X as -> <-.
  split; [reflexivity|]. now apply string_at_inv.
Qed.

(** ** Names of types *)

Lemma is_named_appends s s' t n : appends s s' -> is_named (c_types s) t n -> is_named (c_types s') t n.
Proof.
  intros A (ti & E & N). exists ti. split; [|exact N]. rewrite (appends_nth _ _ _ A); [exact E|]. exact (nth_lt _ _ _ E).
Qed.
Lemma is_named_within n0 a0 s s' t n : within n0 a0 s s' -> is_named (c_types s) t n -> is_named (c_types s') t n.
Proof.
  intros W (ti & E & N). destruct (wi_types _ _ _ _ W _ _ E) as (ti' & E' & I). exists ti'. split; [exact E'|].
  rewrite <- N. symmetry. apply I.
Qed.

Lemma get_type_run p s n o s' : consistent p s -> get_type n s = Ok o s' ->
  s' = s /\ match o with Some t => is_named (c_types s) t n | None => True end.
Proof.
  intros W E. unfold get_type in E. pose proof (map_ok _ _ W n) as M. injection E as <- <-. split; [reflexivity|].
  destruct (map_get bytes_eqb n (c_type_map s)); [|exact I]. apply M.
Qed.
Lemma array_of_named p s t n u s' : consistent p s -> is_named (c_types s) t n -> array_of p t s = Ok u s' ->
  is_named (c_types s') u (n ++ bytes_of_string "[]").
Proof.
  intros W (ti & E & N) R. unfold array_of in R. apply bind_inv_ok in R as (e & s1 & E1 & R).
  unfold the_type in E1. rewrite E in E1. injection E1 as <- <-. rewrite N in R.
  apply bind_inv_ok in R as (o & s1 & E1 & R). destruct (get_type_run _ _ _ _ _ W E1) as [-> O].
  destruct o as [v|]; [injection R as <- <-; exact O|].
  apply bind_inv_ok in R as (id & s1 & E2 & R). unfold next_type_id in E2.
  destruct (u_add _ _ _ _); [|discriminate]. injection E2 as _ <-.
  unfold bind, get_state, get_type, add_type in R. cbn in R. injection R as <- <-. cbn [c_types].
  eexists. split; [rewrite nth_error_app2, Nat.sub_diag by lia; reflexivity|]. reflexivity.
Qed.
Lemma type_for_element_named p md : forall ty n, type_name md ty n -> forall s t s', consistent p s ->
  type_for_element p md (api_type ty) s = Ok t s' -> is_named (c_types s') t n.
Proof.
  assert (C : forall h n, (forall s, type_def_or_ref_name p md h s = Ok (Some n) s) -> forall s t s', consistent p s ->
    bind (type_def_or_ref_name p md h) (fun o => bind (ok_or o "Unable to locate type") (fun n =>
         bind (get_type n) (fun o => ok_or o "Unable to locate type"))) s = Ok t s' -> is_named (c_types s') t n).
  { intros h n H s t s' W E. unfold bind at 1 in E. rewrite H in E. unfold bind at 1, ok_or, ret in E.
    apply bind_inv_ok in E as (o & s1 & E1 & E). destruct (get_type_run _ _ _ _ _ W E1) as [-> O].
    destruct o as [u|]; [|discriminate]. injection E as -> <-. exact O. }
  intros ty n H. induction H as [sm x E|tab row n H|tab row n H|t n H IH]; intros s u s' W R.
  - assert (R' : named x s = Ok u s') by (destruct sm; cbn in E; try discriminate E; injection E as <-; exact R).
    destruct (named_is _ _ _ _ _ W R') as [-> N]. exact N.
  - cbn [api_type type_for_element] in R. eapply C; eauto. intro. now apply row_name_run.
  - cbn [api_type type_for_element] in R. eapply C; eauto. intro. now apply row_name_run.
  - cbn [api_type type_for_element] in R. apply bind_inv_ok in R as (v & s1 & E1 & R).
    destruct (pres_run_ok _ _ _ _ _ _ _ (type_for_element_pres p md (api_type t) s) W E1) as (W1 & _ & _).
    eapply array_of_named; eauto.
Qed.

(** ** Signatures *)

Lemma signature_run {A} p md h bs (m : M reader A) x y s s' : slice_ok (m_blob md) -> heap_blob md h bs -> parses m bs x ->
  signature_at p md h m s = Ok y s' -> y = x.
Proof.
  intros Hb Hh P E. unfold signature_at, bind, lift in E. rewrite (heap_blob_reader p md h bs Hb Hh) in E.
  unfold on_reader, here in E. cbn [app] in E. rewrite len_nil in E.
  assert (So : slice_ok ([] ++ bs ++ [])).
  { cbn [app]. rewrite app_nil_r. unfold slice_ok in *. destruct Hh as [(pre & post & Eb & _) _]. rewrite Eb in Hb.
    revert Hb. slen. lia. }
  specialize (P [] [] So). cbn [app] in P. rewrite app_nil_r, len_nil in P. rewrite P in E. now injection E.
Qed.

(** ** Bodies *)

Lemma read_locals_named p md : forall ls ns pre rest s ts s', consistent p s ->
  Forall2 (type_name md) ls ns -> Forall type_ok ls -> slice_ok (pre ++ concat (map enc_type ls) ++ rest) ->
  read_locals p md (List.length ls) (here pre (concat (map enc_type ls) ++ rest)) s = Ok ts s' ->
  Forall2 (is_named (c_types s')) ts ns.
Proof.
  induction ls as [|t ls IH]; intros ns pre rest s ts s' W F Fo Hs E; inversion F as [|? n ? ns' Hn F']; subst;
    cbn [map concat List.length read_locals] in *.
  - injection E as <- <-. constructor.
  - inversion Fo; subst. rewrite <- app_assoc in *.
    assert (P : parses (read_element_type p) (enc_type t) (api_type t)) by (apply parses_faithful; eapply named_faithful; eauto).
    unfold bind at 1, map_err in E. rewrite (wr _ _ _ _ _ _ P Hs) in E. cbv iota beta in E.
    apply bind_inv_ok in E as (u & s1 & E1 & E). pose proof (type_for_element_named _ _ _ _ Hn _ _ _ W E1) as N.
    destruct (pres_run_ok _ _ _ _ _ _ _ (type_for_element_pres p md (api_type t) s) W E1) as (W1 & _ & _).
    apply bind_inv_ok in E as (us & s2 & E2 & E). injection E as <- <-. constructor.
    + destruct (pres_run_ok _ _ _ _ _ _ _ (read_locals_pres p md _ _ s1) W1 E2) as (_ & A & _). eapply is_named_appends; eauto.
    + eapply IH; [exact W1|exact F'|eassumption| |exact E2]. now apply slice_shift.
Qed.
Lemma load_locals_named p md tok ls ns s ts s' : consistent p s -> slice_ok (m_blob md) ->
  locals_at md tok ls -> Forall2 (type_name md) ls ns -> Forall type_ok ls ->
  load_locals p md tok s = Ok ts s' -> Forall2 (is_named (c_types s')) ts ns.
Proof.
  intros W Hs H F Fo E. unfold load_locals in E. destruct H as [|row rec ls H1 H2 H3 H4 H5].
  - inversion F; subst. injection E as <- <-. constructor.
  - destruct (token_parts 0x11 row H2) as [Ti _]; [reflexivity|]. change (0x11 * 2 ^ 24) with 0x11000000 in Ti. rewrite Ti in E.
    destruct (N.eqb_spec row 0); [lia|].
    unfold bind at 1 in E. rewrite (row_at_run _ _ _ _ _ H1 H3) in E.
    unfold bind at 1, map_err at 1, lift in E. rewrite (heap_blob_reader p _ _ _ Hs H4) in E.
    unfold enc_local_sig in E. change (x07 :: compress (len ls) ++ concat (map enc_type ls)) with ([x07] ++ compress (len ls) ++ concat (map enc_type ls)) in E.
    assert (Hb : slice_ok ([x07] ++ compress (len ls) ++ concat (map enc_type ls))).
    { destruct H4 as [(pre & post & X & _) _]. rewrite X in Hs. apply slice_ok_part in Hs.
      unfold slice_ok in *. rewrite len_app in Hs. unfold enc_local_sig in Hs. cbn [app]. lia. }
    unfold bind at 1, map_err at 1 in E.
    rewrite (wr (rd p 1 blob_eof) [x07] 7 [] (compress (len ls) ++ concat (map enc_type ls)) s) in E;
      [|apply (parses_rd_bytes p 1 blob_eof [x07]); reflexivity|exact Hb].
    cbn [N.eqb Pos.eqb negb] in E. cbn [app] in E.
    unfold bind at 1, map_err at 1 in E.
    rewrite (wr (read_compressed_u32 p) (compress (len ls)) (len ls) [x07] (concat (map enc_type ls)) s) in E;
      [|now apply parses_compress|exact Hb].
    cbv iota beta in E. replace (N.to_nat (len ls)) with (List.length ls) in E by (unfold len; lia).
    eapply (read_locals_named p md ls ns ([x07] ++ compress (len ls)) []); [exact W|exact F|exact Fo| |].
    + rewrite app_nil_r, <- app_assoc. exact Hb.
    + rewrite app_nil_r. exact E.
Qed.

Lemma fat_inv p md rva init (more : bool) ms tok code b s s' : consistent p s ->
  sections_ok (pi_sections (m_pe_info md)) -> slice_ok (m_pe_data md) -> slice_ok (m_blob md) ->
  ms < 2 ^ 16 -> tok < 2 ^ 32 -> len code < 2 ^ 32 -> image_at md rva (enc_fat init more ms tok code) ->
  load_body p md rva s = Ok b s' -> b_code b = code /\ b_max_stack b = ms /\ b_init_locals b = init /\
    forall ls ns, locals_at md tok ls -> Forall type_ok ls -> Forall2 (type_name md) ls ns ->
      Forall2 (is_named (c_types s')) (b_locals b) ns.
Proof.
  intros W Hs Hd Hbl Hm Ht Hc Hi R.
  destruct (body_reader p md rva _ s Hs Hi) as (off & post & E1 & E2 & El).
  assert (Ho : slice_ok (enc_fat init more ms tok code ++ post)) by (unfold slice_ok in *; lia).
  unfold load_body in R. unfold bind at 1 in R. rewrite E1 in R. unfold bind at 1 in R. rewrite E2 in R.
  set (b0 := nb (3 + flag more 8 + flag init 16)) in *.
  assert (Hf : enc_fat init more ms tok code = [b0] ++ [x30] ++ le_enc 2 ms ++ le_enc 4 (len code) ++ le_enc 4 tok ++ code) by reflexivity.
  unfold new_reader in R. change (mkReader (enc_fat init more ms tok code ++ post) 0)
    with (here [] (enc_fat init more ms tok code ++ post)) in R.
  rewrite Hf in *. rewrite <- !app_assoc in *.
  change ([b0] ++ ?x) with ([] ++ [b0] ++ x) in Ho.
  rewrite (wr_bind _ _ _ _ _ _ _ (parses_rd_bytes p 1 bad_body [b0] eq_refl) Ho) in R. apply slice_shift in Ho.
  assert (Hb0 : N.land (le_dec [b0]) 3 = 3 /\ has (le_dec [b0]) 16 = init) by (unfold b0; destruct more, init; split; reflexivity).
  destruct Hb0 as [Hb0 Hb1]. rewrite Hb0, Hb1 in R.
  assert (Ea : exists b, with_reader (here ([] ++ [b0]) ([x30] ++ le_enc 2 ms ++ le_enc 4 (len code) ++ le_enc 4 tok ++ code ++ post)) (advance p 1) s
      = Ok (b, here (([] ++ [b0]) ++ [x30]) (le_enc 2 ms ++ le_enc 4 (len code) ++ le_enc 4 tok ++ code ++ post)) s).
  { assert (Pa : parses (advance p 1 ;;; ret tt) [x30] tt)
      by (apply (parses_skip p 1 [x30] (ret tt) [] tt); [reflexivity|apply parses_ret]).
    pose proof (wr (advance p 1 ;;; ret tt) _ _ _ _ s Pa Ho) as X. unfold with_reader, bind in *.
    destruct (advance p 1 _) as [a r| | | |]; cbn [ret] in X; try discriminate X. unfold ret in X.
    injection X as X. exists a. now rewrite X. }
  destruct Ea as [bb Ea]. unfold bind at 1 in R. rewrite Ea in R. cbv iota beta in R. apply slice_shift in Ho.
  rewrite (wr_bind _ _ _ _ _ _ _ (parses_rd p 2 bad_body _ (Hm : ms < 256 ^ 2)) Ho) in R. apply slice_shift in Ho.
  rewrite (wr_bind _ _ _ _ _ _ _ (parses_rd p 4 bad_body _ (Hc : len code < 256 ^ 4)) Ho) in R. apply slice_shift in Ho.
  rewrite (wr_bind _ _ _ _ _ _ _ (parses_rd p 4 bad_body _ (Ht : tok < 256 ^ 4)) Ho) in R. apply slice_shift in Ho.
  apply bind_inv_ok in R as (ls & s1 & EL & R).
  rewrite (wr_bind _ _ _ _ _ _ _ (parses_code p code) Ho) in R.
  apply bind_inv_ok in R as (cs & s2 & EC & R). injection R as <- <-. cbn. split; [reflexivity|]. split; [reflexivity|]. split; [reflexivity|].
  intros tys ns L1 L2 L3. pose proof (load_locals_named _ _ _ _ _ _ _ _ W Hbl L1 L3 L2 EL) as N.
  destruct (pres_run_ok _ _ _ _ _ _ _ (load_locals_pres p md tok s) W EL) as (W1 & _ & _).
  assert (A : appends s1 s2).
  { destruct (has (le_dec [b0]) 8); [|injection EC as _ <-; apply appends_refl].
    destruct (pres_run_ok _ _ _ _ _ _ _ (read_section_pres p md _ s1) W1 EC) as (_ & A & _). exact A. }
  clear - N A. induction N; constructor; auto. eapply is_named_appends; eauto.
Qed.

(** ** Internal methods *)

Lemma built_in_name j d n pns rs : built_in j d n pns ->
  forall i, internal_method (rs ++ bytes_of_string " " ++ d ++ bytes_of_string "." ++ n ++ bytes_of_string "(" ++ comma_separated pns ++ bytes_of_string ")") = Some i ->
  i = j.
Proof.
  intros B i E. unfold internal_method in E.
  repeat match type of E with context [bytes_eqb ?x ?y] =>
    let H := fresh "H" in destruct (bytes_eqb x y) eqn:H; [apply bytes_eqb_spec in H; injection E as <-|clear H] end; [| | |discriminate E];
  destruct j; try reflexivity; destruct B as (-> & -> & ->); exfalso; apply (f_equal (@rev byte)) in H;
  rewrite rev_app_distr in H; vm_compute in H; discriminate H.
Qed.
Lemma param_names_run p md : forall tys ns s l s', Forall2 (type_name md) tys ns -> consistent p s ->
  param_type_names p md (map api_type tys) s = Ok l s' -> l = ns.
Proof.
  unfold param_type_names. induction tys as [|ty tys IH]; intros ns s l s' F W E; inversion F as [|? n ? ns' Hn F']; subst; cbn [map map_m] in E.
  - now injection E as <- <-.
  - apply bind_inv_ok in E as (x & s1 & E1 & E). apply bind_inv_ok in E1 as (u & s2 & E2 & E1).
    unfold unwrap_result in E2. destruct (type_for_element p md (api_type ty) s) as [v s3|e s3|w|w|] eqn:ET; try discriminate E2.
    injection E2 as -> ->. destruct (type_for_element_named _ _ _ _ Hn _ _ _ W ET) as (ti & Et & N).
    destruct (pres_run_ok _ _ _ _ _ _ _ (type_for_element_pres p md (api_type ty) s) W ET) as (W1 & _ & _).
    unfold bind, the_type in E1. rewrite Et in E1. injection E1 as <- <-.
    apply bind_inv_ok in E as (l' & s3 & E3 & E). injection E as <- <-. rewrite (IH _ _ _ _ F' W1 E3), N. reflexivity.
Qed.

(** ** Fields and methods *)

Section Rows.
  Variables (p : profile) (md : metadata).
  Hypothesis Hmd : addressable md.

  Lemma load_field_as t k o s f s' : consistent p s -> len (tb_field (m_tables md)) < 2 ^ 24 -> k < 2 ^ 64 ->
    load_field p md t k o s = Ok f s' ->
    exists row, row_of (tb_field (m_tables md)) k row /\ field_as md (c_types s') row t f.
  Proof.
    intros W L K E. unfold load_field in E. apply bind_inv_ok in E as (row & s1 & E1 & E).
    apply row_at_inv in E1 as [-> Hr]; [|lia].
    apply bind_inv_ok in E as (n & s1 & E2 & E). apply string_run in E2 as [-> Hn].
    apply bind_inv_ok in E as (e & s1 & E3 & E). pose proof (pres_run_ok _ _ _ _ _ _ _ (signature_at_pres p md _ _ s) W E3) as (_ & _ & ->).
    apply bind_inv_ok in E as (u & s1 & E4 & E). injection E as <- <-.
    exists row. split; [exact Hr|]. split; cbn [f_name f_declaring f_static f_type]; auto.
    intros ty m Ho Hb Hy. destruct Hmd as (B & _ & _).
    assert (F : faithful ty) by (eapply named_faithful; eauto).
    assert (e = api_type ty) as -> by (eapply signature_run; [exact B|exact Hb|now apply parses_field_sig|exact E3]).
    eapply type_for_element_named; eauto.
  Qed.

  Lemma load_params_named : forall tys ns h s ps s', Forall2 (type_name md) tys ns -> consistent p s ->
    load_params p md h (map api_type tys) s = Ok ps s' -> Forall2 (is_named (c_types s')) (map pa_type ps) ns.
  Proof.
    induction tys as [|ty tys IH]; intros ns h s ps s' F W E; inversion F as [|? n ? ns' Hn F']; subst; cbn [map load_params] in E.
    - injection E as <- <-. constructor.
    - apply bind_inv_ok in E as (row & s1 & E1 & E). pose proof (pures _ _ _ _ (pure_row_at p (tb_param (m_tables md)) h) E1) as ->.
      apply bind_inv_ok in E as (x & s1 & E2 & E). apply string_run in E2 as [-> _].
      apply bind_inv_ok in E as (u & s1 & E3 & E).
      pose proof (type_for_element_named _ _ _ _ Hn _ _ _ W E3) as N.
      destruct (pres_run_ok _ _ _ _ _ _ _ (type_for_element_pres p md (api_type ty) s) W E3) as (W1 & _ & _).
      apply bind_inv_ok in E as (qs & s2 & E4 & E). injection E as <- <-. cbn [map pa_type]. constructor.
      + destruct (pres_run_ok _ _ _ _ _ _ _ (load_params_pres p md _ _ s1) W1 E4) as (_ & A & _). eapply is_named_appends; eauto.
      + eapply IH; eauto.
  Qed.

  Lemma load_params_rows : len (tb_param (m_tables md)) < 2 ^ 24 -> forall es h s ps s',
    load_params p md h es s = Ok ps s' -> forall i a, nth_error ps i = Some a ->
    exists r, row_of (tb_param (m_tables md)) (h + N.of_nat i) r /\ heap_text md (pm_name r) (pa_name a) /\ pa_index a = pm_index r.
  Proof.
    intro L. assert (K : 2 ^ 24 < 2 ^ 64) by reflexivity.
    induction es as [|e es IH]; intros h s ps s' E; cbn [load_params] in E.
    - injection E as <- <-. intros [|i] a X; discriminate.
    - apply bind_inv_ok in E as (row & s1 & E1 & E). apply row_at_inv in E1 as [-> Hr]; [|lia].
      apply bind_inv_ok in E as (x & s1 & E2 & E). apply string_run in E2 as [-> Hx].
      apply bind_inv_ok in E as (u & s1 & E3 & E).
      apply bind_inv_ok in E as (qs & s2 & E4 & E). injection E as <- <-. intros [|i] a X; cbn in X.
      + injection X as <-. exists row. rewrite N.add_0_r. auto.
      + destruct (IH _ _ _ _ E4 _ _ X) as (r & R1 & R2). exists r. split; [|exact R2].
        replace (h + N.of_nat (S i)) with (h + 1 + N.of_nat i) by lia. exact R1.
  Qed.

  Lemma load_method_as t k s m s' : consistent p s -> v_ref s t -> len (tb_method_def (m_tables md)) < 2 ^ 24 -> k < 2 ^ 64 ->
    load_method p md t k s = Ok m s' ->
    exists row, row_of (tb_method_def (m_tables md)) k row /\ method_as md (c_types s') row t m.
  Proof.
    intros W Vt L K E. unfold load_method in E. apply bind_inv_ok in E as (row & s1 & E1 & E).
    apply row_at_inv in E1 as [-> Hr]; [|lia].
    apply bind_inv_ok in E as (n & s1 & E2 & E). apply string_run in E2 as [-> Hn].
    apply bind_inv_ok in E as (sig & s1 & E3 & E). pose proof (pres_run_ok _ _ _ _ _ _ _ (signature_at_pres p md _ _ s) W E3) as (_ & _ & ->).
    apply bind_inv_ok in E as (im & s1 & E4 & E). destruct Hmd as (B & D & Se).
    assert (W1 : consistent p s1 /\
      (mi_internal_call (me_impl_attributes row) = false -> ma_is_abstract (me_attributes row) = false ->
       exists b, im = IIL b /\ load_body p md (me_rva row) s = Ok b s1) /\
      (mi_internal_call (me_impl_attributes row) = false -> ma_is_abstract (me_attributes row) = true -> im = INone) /\
      (mi_internal_call (me_impl_attributes row) = true ->
        exists i dti rs l s2, im = IInternal i /\ nth_error (c_types s1) t = Some dti /\ param_type_names p md (sg_params sig) s = Ok l s2 /\
          internal_method (rs ++ bytes_of_string " " ++ ti_full_name dti ++ bytes_of_string "." ++ n ++ bytes_of_string "(" ++ comma_separated l ++ bytes_of_string ")") = Some i) /\
      appends s s1).
    { destruct (mi_internal_call (me_impl_attributes row)).
      - apply bind_inv_ok in E4 as (names & s2 & X1 & E4). destruct (pres_run_ok _ _ _ _ _ _ _ (param_type_names_pres p md _ s) W X1) as (W2 & A2 & _).
        apply bind_inv_ok in E4 as (rt & s3 & X2 & E4). destruct (pres_run_ok _ _ _ _ _ _ _ (type_for_element_pres p md _ s2) W2 X2) as (W3 & A3 & _).
        apply bind_inv_ok in E4 as (rti & s4 & X3 & E4). pose proof (pures _ _ _ _ (pure_the_type rt) X3) as ->.
        apply bind_inv_ok in E4 as (dti & s4 & X4 & E4). pose proof (pures _ _ _ _ (pure_the_type t) X4) as ->.
        apply bind_inv_ok in E4 as (i & s4 & X5 & E4). pose proof (pures _ _ _ _ (pure_ok_or _ _) X5) as ->.
        injection E4 as <- <-. split; [exact W3|]. split; [discriminate|]. split; [discriminate|]. split; [|exact (appends_trans _ _ _ A2 A3)]. intros _.
        unfold the_type in X4. destruct (nth_error (c_types s3) t) as [x|] eqn:Et; [|discriminate X4]. injection X4 as ->.
        destruct (internal_method _) as [y|] eqn:Ei in X5; [|discriminate X5]. injection X5 as ->.
        exists i, dti, (ti_name rti), names, s2. auto.
      - destruct (ma_pinvoke_impl (me_attributes row)); [discriminate|].
        destruct (ma_is_abstract (me_attributes row)); cbn [negb] in E4.
        + injection E4 as <- <-. split; [exact W|]. split; [discriminate|]. split; [reflexivity|]. split; [discriminate|apply appends_refl].
        + apply bind_inv_ok in E4 as (b & s2 & X1 & E4). injection E4 as <- <-.
          destruct (pres_run_ok _ _ _ _ _ _ _ (load_body_pres p md _ s) W X1) as (W2 & A2 & _).
          split; [exact W2|]. split; [|split; [discriminate|split; [discriminate|exact A2]]]. intros _ _. eauto. }
    destruct W1 as (W1 & I1 & I2 & I3 & A1).
    apply bind_inv_ok in E as (rt & s2 & E5 & E). destruct (pres_run_ok _ _ _ _ _ _ _ (type_for_element_pres p md _ s1) W1 E5) as (W2 & A2 & _).
    apply bind_inv_ok in E as (ps & s3 & E6 & E). injection E as <- <-.
    destruct (pres_run_ok _ _ _ _ _ _ _ (load_params_pres p md _ _ s2) W2 E6) as (W3 & A3 & _).
    assert (SG : forall sg rn pns, method_sig_ok sg -> heap_blob md (me_signature row) (enc_method_sig sg) ->
      type_name md (ms_result sg) rn -> Forall2 (type_name md) (ms_args sg) pns -> ms_extra sg = [] -> sig = api_method_sig sg).
    { intros sg rn pns Ho Hb Hrn Hp Hx. destruct Ho as (O1 & O2 & O3 & O4 & O5).
      assert (F1 : faithful (ms_result sg)) by (eapply named_faithful; eauto).
      assert (F2 : Forall faithful (ms_args sg)).
      { clear - Hp O4. revert O4. induction Hp; intro O4; [constructor|]. inversion O4; subst.
        constructor; [eapply named_faithful; eauto|auto]. }
      eapply signature_run; [exact B|exact Hb| |exact E3]. apply parses_method_sig; auto. repeat split; auto. }
    exists row. split; [exact Hr|].
    split; cbn [mt_name mt_declaring mt_return mt_params mt_impl mt_static mt_virtual mt_abstract]; auto.
    - intros sg rn pns Ho Hx Hb Hrn Hp. rewrite (SG sg rn pns Ho Hb Hrn Hp Hx) in *.
      cbn [sg_return_type sg_params api_method_sig] in *. rewrite Hx, app_nil_r in E6. split.
      + eapply is_named_appends; [exact A3|]. exact (type_for_element_named _ _ _ _ Hrn _ _ _ W1 E5).
      + exact (load_params_named _ _ _ _ _ _ Hp W2 E6).
    - intro Lp. exact (load_params_rows Lp _ _ _ _ _ E6).
    - intros X Y. destruct (I1 X Y) as (b & -> & Eb). exists b. split; [reflexivity|]. split.
      + intros code Lc Im. destruct (tiny_run p md (me_rva row) code s Se D Lc Im) as [i R]. rewrite R in Eb. injection Eb as <- _. auto.
      + intros init more mx tok code L1 L2 L3 Im.
        destruct (fat_inv _ _ _ _ _ _ _ _ _ _ _ W Se D B L1 L2 L3 Im Eb) as (F1 & F2 & F3 & F4).
        split; [exact F1|]. split; [exact F2|]. split; [exact F3|]. intros ls ns M1 M2 M3. specialize (F4 ls ns M1 M2 M3).
        assert (A13 : appends s1 s3) by exact (appends_trans _ _ _ A2 A3).
        clear - F4 A13. induction F4; constructor; auto. eapply is_named_appends; eauto.
    - intro X. destruct (I3 X) as (i & dti & rs & l & s4 & -> & Et & El & Ei). exists i, (ti_full_name dti). split; [reflexivity|]. split.
      + eapply is_named_appends; [exact A3|]. eapply is_named_appends; [exact A2|]. exists dti. auto.
      + intros sg rn pns j Ho Hx Hrn Hb Hp Bj. rewrite (SG sg rn pns Ho Hb Hrn Hp Hx) in El.
        cbn [sg_params api_method_sig] in El. rewrite Hx, app_nil_r in El.
        rewrite (param_names_run _ _ _ _ _ _ _ Hp W El) in Ei. exact (built_in_name _ _ _ _ _ Bj _ Ei).
  Qed.
End Rows.

(** ** References to methods and types *)

Lemma full_name_at_run md x y s fn s' : full_name_at md x y s = Ok fn s' ->
  s' = s /\ exists n ns, heap_text md x n /\ heap_text md y ns /\ fn = qualified n ns.
Proof.
  unfold full_name_at. intro E. apply bind_inv_ok in E as (n & s1 & E1 & E). apply string_run in E1 as [-> H1].
  apply bind_inv_ok in E as (ns & s1 & E2 & E). apply string_run in E2 as [-> H2]. injection E as <- <-. eauto 6.
Qed.
Lemma get_type_latest p s n t s' : consistent p s -> get_type n s = Ok (Some t) s' -> latest (c_types s) n t.
Proof.
  intros W E. unfold get_type in E. pose proof (map_ok _ _ W n) as M. injection E as E _. rewrite E in M. exact M.
Qed.

Lemma method_refs_run p md s : consistent p s -> len (tb_type_ref (m_tables md)) < 2 ^ 64 -> forall rows ms s',
  load_method_refs p md rows s = Ok ms s' -> s' = s /\
  Forall2 (fun row m => exists fn t ti mn, parent_of md row fn /\ latest (c_types s) fn t /\ nth_error (c_types s) t = Some ti /\
    heap_text md (mr_name row) mn /\ map_get bytes_eqb mn (ti_method_map ti) = Some m) (filter of_type_ref rows) ms.
Proof.
  intros W L. induction rows as [|row rows IH]; intros ms s' E; cbn [load_method_refs filter] in *.
  - injection E as <- <-. split; [reflexivity|constructor].
  - unfold of_type_ref at 1. destruct (ref_table (mr_parent row)) eqn:T; try exact (IH _ _ E).
    apply bind_inv_ok in E as (tr & s1 & E1 & E). apply row_at_inv in E1 as [-> Hr]; [|exact L].
    apply bind_inv_ok in E as (fn & s1 & E2 & E). apply full_name_at_run in E2 as [-> (n & ns & Hn & Hns & ->)].
    apply bind_inv_ok in E as (o & s1 & E3 & E). destruct (get_type_run _ _ _ _ _ W E3) as [-> _].
    apply bind_inv_ok in E as (t & s1 & E4 & E). destruct o as [t'|]; [|discriminate]. injection E4 as -> <-.
    pose proof (get_type_latest _ _ _ _ _ W E3) as La.
    apply bind_inv_ok in E as (mn & s1 & E5 & E). destruct (string_at md (mr_name row)) as [x|] eqn:Ex; [|discriminate]. injection E5 as -> <-.
    apply bind_inv_ok in E as (o & s1 & E6 & E). unfold get_method in E6. apply bind_inv_ok in E6 as (ti & s2 & E6 & E7).
    pose proof (pures _ _ _ _ (pure_the_type t) E6) as ->. unfold the_type in E6. destruct (nth_error (c_types s) t) as [y|] eqn:Et; [|discriminate].
    injection E6 as ->. injection E7 as <- <-.
    apply bind_inv_ok in E as (m & s1 & E8 & E). destruct (map_get bytes_eqb mn (ti_method_map ti)) as [z|] eqn:Em; [|discriminate].
    injection E8 as -> <-. apply bind_inv_ok in E as (ms' & s1 & E9 & E). injection E as <- <-.
    destruct (IH _ _ E9) as [-> F]. split; [reflexivity|]. constructor; [|exact F].
    exists (qualified n ns), t, ti, mn. split; [exists tr, n, ns; auto|]. split; [exact La|]. split; [exact Et|]. split; [|exact Em].
    now apply string_at_inv.
Qed.
Lemma type_refs_run p md s ts s' : consistent p s -> load_type_refs p md s = Ok ts s' -> s' = s /\
  Forall2 (fun row t => exists n ns, heap_text md (tr_name row) n /\ heap_text md (tr_namespace row) ns /\
    latest (c_types s) (qualified n ns) t) (tb_type_ref (m_tables md)) ts.
Proof.
  intros W. unfold load_type_refs. revert ts s'. induction (tb_type_ref (m_tables md)) as [|row rows IH]; intros ts s' E; cbn [map_m] in E.
  - injection E as <- <-. split; [reflexivity|constructor].
  - apply bind_inv_ok in E as (t & s1 & E1 & E). apply bind_inv_ok in E1 as (fn & s2 & E2 & E1).
    apply full_name_at_run in E2 as [-> (n & ns & Hn & Hns & ->)].
    apply bind_inv_ok in E1 as (o & s2 & E3 & E1). destruct (get_type_run _ _ _ _ _ W E3) as [-> _].
    destruct o as [t'|]; [|discriminate]. injection E1 as -> <-. pose proof (get_type_latest _ _ _ _ _ W E3) as La.
    apply bind_inv_ok in E as (ts' & s1 & E4 & E). injection E as <- <-. destruct (IH _ _ E4) as [-> F].
    split; [reflexivity|]. constructor; [eauto|exact F].
Qed.

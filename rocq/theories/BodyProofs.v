(** Lemmas behind C29 and C30: loading method bodies. *)
From Coq Require Import NArith String List Bool Lia Arith.
From Coq.Strings Require Import Byte.
From Verif Require Import Base BaseFacts BinaryReader ParseSpec ReaderFacts Attributes Tables TablesProofs Blob Metadata
  Runtime Loader SpecBytes SpecUtf SpecBlob BlobProofs PropsBlob SpecPe Pe PeProofs SpecMetadata MetadataProofs SpecRuntime
  RuntimeInv SpecBody.
Import ListNotations.
Open Scope N_scope.

(** ** Names *)

Lemma string_at_text md h t : heap_text md h t -> string_at md h = Some t.
Proof.
  intros (B & Hn & Hu). destruct (C11_text_found (m_strings md) [] h t B Hn Hu) as [h' E].
  unfold string_at. cbn [after_lookups fold_left] in E. now rewrite E.
Qed.

Lemma full_name_qualified n ns : full_name n ns = qualified n ns.
Proof. reflexivity. Qed.

Lemma row_at_run {A} p (rows : list A) row d s : 1 <= row ->
  nth_error rows (N.to_nat (row - 1)) = Some d -> row_at p rows row s = Ok d s.
Proof.
  intros H E. unfold row_at, lift, table_index. rewrite u_sub_small by exact H. now rewrite E.
Qed.

Lemma row_name_run p md tab row n s : row_name md tab row n ->
  type_def_or_ref_name p md (named_ref tab row) s = Ok (Some n) s.
Proof.
  intro H. unfold type_def_or_ref_name. destruct H as [row d n ns H1 H2 H3 H4|row d n ns H1 H2 H3 H4];
  cbn [named_ref ref_table ref_index];
  unfold bind at 1, bind at 1, lift, table_index; rewrite u_sub_small by exact H1; rewrite H2; cbn [ret];
  unfold ret; rewrite (string_at_text _ _ _ H3), (string_at_text _ _ _ H4); reflexivity.
Qed.

(** ** The registries only grow by array types *)

Record grows (k : N) (s s' : vm) : Prop := {
  gr_appends : appends s s';
  gr_latest : forall n i, latest (c_types s) n i -> latest (c_types s') n i;
  gr_count : len (c_types s') <= len (c_types s) + k }.

Lemma grows_refl s : grows 0 s s.
Proof. split; auto using appends_refl. lia. Qed.
Lemma grows_trans k l a b c : grows k a b -> grows l b c -> grows (k + l) a c.
Proof. intros [A B C] [A' B' C']. split; eauto using appends_trans. lia. Qed.
Lemma grows_more k l s s' : k <= l -> grows k s s' -> grows l s s'.
Proof. intros H [A B C]. split; auto. lia. Qed.

Lemma known_latest p s n : consistent p s -> known s n -> exists i, latest (c_types s) n i /\ get_type n s = Ok (Some i) s.
Proof.
  intros W (t & I & E). pose proof (map_ok _ _ W n) as M. unfold get_type.
  destruct (map_get bytes_eqb n (c_type_map s)) as [i|]; [eauto|]. exfalso. exact (M t I E).
Qed.
Lemma latest_get p s n i : consistent p s -> latest (c_types s) n i -> get_type n s = Ok (Some i) s.
Proof.
  intros W L. pose proof (map_ok _ _ W n) as M. unfold get_type.
  destruct (map_get bytes_eqb n (c_type_map s)) as [j|].
  - now rewrite (latest_unique _ _ _ _ M L).
  - exfalso. destruct L as [(x & E & N1) _]. apply (M x); [eapply nth_error_In; eauto|exact N1].
Qed.
Lemma latest_known s n i : latest (c_types s) n i -> known s n.
Proof. intros [(x & E & N1) _]. exists x. split; [eapply nth_error_In; eauto|exact N1]. Qed.
Lemma known_grows k s s' n : known s n -> grows k s s' -> known s' n.
Proof.
  intros (t & I & E) [A _ _]. destruct (ap_types _ _ A) as [l El]. exists t. split; [|exact E].
  rewrite El. apply in_or_app. auto.
Qed.

(** Room for [k] more types; a release build always has it. *)
Definition room (p : profile) (s : vm) (k : N) : Prop := p = Debug -> len (c_types s) + k < 2 ^ 32.

Lemma array_of_latest p s t n : consistent p s -> room p s 1 -> latest (c_types s) n t ->
  exists u s', array_of p t s = Ok u s' /\ consistent p s' /\ grows 1 s s' /\
    latest (c_types s') (n ++ bytes_of_string "[]") u.
Proof.
  intros W R L. destruct L as [(e & Ee & Ne) Hl]. subst n.
  assert (X : exists u s', array_of p t s = Ok u s' /\ (forall n i, latest (c_types s) n i -> latest (c_types s') n i) /\
      len (c_types s') <= len (c_types s) + 1 /\ latest (c_types s') (ti_full_name e ++ bytes_of_string "[]") u).
  { unfold array_of, bind, the_type. rewrite Ee. unfold get_type at 1.
    pose proof (map_ok _ _ W (ti_full_name e ++ bytes_of_string "[]")) as M.
    destruct (map_get bytes_eqb (ti_full_name e ++ bytes_of_string "[]") (c_type_map s)) as [v|].
    - exists v, s. split; [reflexivity|]. split; [auto|]. split; [lia|exact M].
    - unfold next_type_id. assert (U : exists k, u_add p 32 (c_next_id s) 1 = Some k).
      { destruct p; [|unfold u_add; destruct (_ <? _); eauto].
        rewrite u_add_small; [eauto|]. specialize (R eq_refl). rewrite (next_ok _ _ W).
        rewrite N.mod_small by lia. lia. }
      destruct U as [k ->]. eexists _, _. split; [reflexivity|]. cbn [c_types add_type set_next_id].
      set (a := mkType _ _ _ _ _ _ _ _ _ _ _ _ _). change (ti_full_name e ++ bytes_of_string "[]") with (ti_full_name a).
      split; [|split; [slen; lia|apply latest_app]]. intros n i L. apply latest_app_other; [exact L|].
      intro E. destruct L as [(x & Ex & Nx) _]. apply (M x); [eapply nth_error_In; eauto|]. rewrite Nx, <- E. reflexivity. }
  destruct X as (u & s' & E & A & B & C). exists u, s'. split; [exact E|].
  pose proof (array_of_pres p s t W) as P. rewrite E in P. destruct P as (W' & A' & _).
  split; [exact W'|]. split; [split; auto|exact C].
Qed.

(** A signature type that has a name, and whose innermost element is registered, is found. *)
Lemma type_run p md : forall t n s, consistent p s -> type_name md t n -> element_known md s t -> room p s (vectors t) ->
  exists u s', type_for_element p md (api_type t) s = Ok u s' /\ consistent p s' /\ grows (vectors t) s s' /\
    latest (c_types s') n u.
Proof.
  intros t n s W H. revert s W. induction H as [sm x E|tab row n H|tab row n H|t n H IH]; intros s W K R.
  - specialize (K _ (name_simple md sm x E)). destruct (known_latest p s _ W K) as (i & L & G).
    exists i, s. split; [|auto using grows_refl].
    destruct sm; cbn in E; try discriminate E; injection E as <-;
    cbn [api_type simple_api type_for_element]; unfold named, bind; rewrite G; reflexivity.
  - specialize (K _ (name_value md tab row n H)). destruct (known_latest p s _ W K) as (i & L & G).
    exists i, s. split; [|auto using grows_refl]. cbn [api_type type_for_element].
    unfold bind. rewrite (row_name_run _ _ _ _ _ _ H). cbn [ok_or]. unfold ret. rewrite G. reflexivity.
  - specialize (K _ (name_class md tab row n H)). destruct (known_latest p s _ W K) as (i & L & G).
    exists i, s. split; [|auto using grows_refl]. cbn [api_type type_for_element].
    unfold bind. rewrite (row_name_run _ _ _ _ _ _ H). cbn [ok_or]. unfold ret. rewrite G. reflexivity.
  - cbn [element_known] in K. cbn [vectors] in *.
    destruct (IH s W K) as (u & s1 & E1 & W1 & G1 & L1); [intros ->; specialize (R eq_refl); lia|].
    destruct (array_of_latest p s1 u n W1) as (v & s2 & E2 & W2 & G2 & L2); [|exact L1|].
    { intros ->. specialize (R eq_refl). pose proof (gr_count _ _ _ G1). lia. }
    exists v, s2. split; [|split; [exact W2|split; [eapply grows_trans; eauto|exact L2]]].
    cbn [api_type type_for_element]. unfold bind. rewrite E1. exact E2.
Qed.

Lemma element_known_grows md k s s' t : element_known md s t -> grows k s s' -> element_known md s' t.
Proof.
  intros H G. induction t; cbn [element_known] in *; auto; intros nm Hn; eapply known_grows; eauto.
Qed.

Lemma named_faithful md t n : type_ok t -> type_name md t n -> faithful t.
Proof.
  intros Ho H. split; [exact Ho|]. clear Ho. induction H; cbn; auto.
Qed.

(** ** Readers in the middle of data *)

Definition here (pre rest : list byte) : reader := mkReader (pre ++ rest) (len pre).

Lemma wr {S A} (m : M reader A) bs a pre rest (s : S) : parses m bs a -> slice_ok (pre ++ bs ++ rest) ->
  with_reader (here pre (bs ++ rest)) m s = Ok (a, here (pre ++ bs) rest) s.
Proof.
  intros H Hs. unfold with_reader, here. rewrite (H pre rest Hs). f_equal. f_equal.
  rewrite <- app_assoc. f_equal. slen. lia.
Qed.

Lemma wr_bind {S A B} (m : M reader A) bs a pre rest (s : S) (k : A * reader -> M S B) :
  parses m bs a -> slice_ok (pre ++ bs ++ rest) ->
  bind (with_reader (here pre (bs ++ rest)) m) k s = k (a, here (pre ++ bs) rest) s.
Proof. intros H Hs. unfold bind. now rewrite (wr m bs a). Qed.

Lemma slice_shift pre bs rest : slice_ok (pre ++ bs ++ rest) -> slice_ok ((pre ++ bs) ++ rest).
Proof. now rewrite <- app_assoc. Qed.

(** ** Local variables *)

Lemma read_locals_run p md : forall ls ns pre rest s, consistent p s ->
  Forall2 (type_name md) ls ns -> Forall type_ok ls -> Forall (element_known md s) ls ->
  room p s (sum (map vectors ls)) -> slice_ok (pre ++ concat (map enc_type ls) ++ rest) ->
  exists ts s', read_locals p md (List.length ls) (here pre (concat (map enc_type ls) ++ rest)) s = Ok ts s' /\
    consistent p s' /\ grows (sum (map vectors ls)) s s' /\ Forall2 (latest (c_types s')) ns ts.
Proof.
  induction ls as [|t ls IH]; intros ns pre rest s W F Fo K R Hs; inversion F; subst; cbn [map concat sum fold_right List.length read_locals] in *.
  - exists [], s. split; [reflexivity|]. split; [exact W|]. split; [apply grows_refl|constructor].
  - inversion Fo; subst. inversion K; subst. rewrite <- app_assoc in *. fold (sum (map vectors ls)) in *.
    assert (P : parses (read_element_type p) (enc_type t) (api_type t)) by (apply parses_faithful; eapply named_faithful; eauto).
    destruct (type_run p md t y s W) as (u & s1 & E1 & W1 & G1 & L1); auto.
    { intros ->. specialize (R eq_refl). lia. }
    destruct (IH l' (pre ++ enc_type t) rest s1) as (ts & s2 & E2 & W2 & G2 & L2); auto.
    { eapply Forall_impl; [|eassumption]. intros x Hx. eapply element_known_grows; eauto. }
    { intros ->. specialize (R eq_refl). pose proof (gr_count _ _ _ G1). lia. }
    { now apply slice_shift. }
    exists (u :: ts), s2. split; [|split; [exact W2|split; [eapply grows_trans; eauto|]]].
    + unfold bind at 1, map_err. rewrite (wr _ _ _ _ _ _ P Hs). cbv iota beta.
      unfold bind at 1. rewrite E1. unfold bind. rewrite E2. reflexivity.
    + constructor; [|exact L2]. eapply (gr_latest _ _ _ G2); eauto.
Qed.

Lemma token_parts t row : row < 2 ^ 24 -> t < 2 ^ 8 ->
  token_index (t * 2 ^ 24 + row) = row /\ token_table (t * 2 ^ 24 + row) = t.
Proof.
  intros Hr Ht. unfold token_index, token_table.
  assert (Hm : (t * 2 ^ 24 + row) mod 2 ^ 24 = row).
  { rewrite N.add_comm, N.mod_add by discriminate. now apply N.mod_small. }
  assert (Hd : (t * 2 ^ 24 + row) / 2 ^ 24 = t).
  { rewrite N.add_comm, N.div_add by discriminate. rewrite N.div_small by exact Hr. reflexivity. }
  split.
  - change 0xffffff with (N.ones 24). now rewrite N.land_ones.
  - rewrite N.shiftr_land, N.shiftr_div_pow2, Hd. change (N.shiftr 4278190080 24) with (N.ones 8).
    rewrite N.land_ones. now apply N.mod_small.
Qed.

Lemma slice_ok_part pre b post : slice_ok (pre ++ b ++ post) -> slice_ok b.
Proof. unfold slice_ok. slen. lia. Qed.

Lemma heap_blob_reader p md h b : slice_ok (m_blob md) -> heap_blob md h b ->
  blob_heap_reader p (m_blob md) h = Ok (here [] b) tt.
Proof.
  intros Hs [(pre & post & E & <-) Hb]. unfold here. cbn [app]. rewrite len_nil.
  eapply blob_reader_at with (prefix := compress (len b)) (post := post); eauto.
  - now apply parses_compress.
  - now rewrite <- !app_assoc in E.
Qed.

Lemma load_locals_run p md tok ls ns s : consistent p s -> slice_ok (m_blob md) ->
  locals_at md tok ls -> Forall2 (type_name md) ls ns -> Forall type_ok ls -> Forall (element_known md s) ls ->
  room p s (sum (map vectors ls)) ->
  exists ts s', load_locals p md tok s = Ok ts s' /\
    consistent p s' /\ grows (sum (map vectors ls)) s s' /\ Forall2 (latest (c_types s')) ns ts.
Proof.
  intros W Hs H F Fo K R. unfold load_locals. destruct H as [|row rec ls H1 H2 H3 H4 H5].
  - inversion F; subst. exists [], s. split; [reflexivity|]. split; [exact W|]. split; [apply grows_refl|constructor].
  - destruct (token_parts 0x11 row H2) as [Ti _]; [reflexivity|]. change (0x11 * 2 ^ 24) with 0x11000000 in Ti. rewrite Ti.
    destruct (N.eqb_spec row 0); [lia|].
    unfold bind at 1. rewrite (row_at_run _ _ _ _ _ H1 H3).
    unfold bind at 1, map_err at 1, lift. rewrite (heap_blob_reader p _ _ _ Hs H4).
    unfold enc_local_sig. change (x07 :: compress (len ls) ++ concat (map enc_type ls)) with ([x07] ++ compress (len ls) ++ concat (map enc_type ls)).
    assert (Hb : slice_ok ([x07] ++ compress (len ls) ++ concat (map enc_type ls))).
    { destruct H4 as [(pre & post & E & _) _]. rewrite E in Hs. apply slice_ok_part in Hs.
      unfold slice_ok in *. rewrite len_app in Hs. unfold enc_local_sig in Hs. cbn [app]. lia. }
    unfold bind at 1, map_err at 1.
    rewrite (wr (rd p 1 blob_eof) [x07] 7 [] (compress (len ls) ++ concat (map enc_type ls)) s);
      [|apply (parses_rd_bytes p 1 blob_eof [x07]); reflexivity|exact Hb].
    cbn [N.eqb Pos.eqb negb]. cbn [app].
    unfold bind at 1, map_err at 1.
    rewrite (wr (read_compressed_u32 p) (compress (len ls)) (len ls) [x07] (concat (map enc_type ls)) s);
      [|now apply parses_compress|exact Hb].
    cbv iota beta.
    destruct (read_locals_run p md ls ns ([x07] ++ compress (len ls)) [] s W F Fo K R) as (ts & s' & E & rest).
    { rewrite app_nil_r, <- app_assoc. exact Hb. }
    exists ts, s'. split; [|exact rest]. rewrite <- E. rewrite app_nil_r.
    replace (N.to_nat (len ls)) with (List.length ls) by (unfold len; lia). reflexivity.
Qed.

(** ** Exception clauses *)

Lemma catch_type_run p md s tok n : consistent p s -> caught md tok n -> known s n ->
  exists t, catch_type p md tok s = Ok t s /\ latest (c_types s) n t.
Proof.
  intros W H K. destruct (known_latest p s n W K) as (i & L & G). exists i. split; [|exact L].
  unfold catch_type. destruct H as [row n Hr H|row n Hr H].
  - destruct (token_parts 0x02 row Hr) as [Ti Tt]; [reflexivity|]. change (0x02 * 2 ^ 24) with 0x02000000 in *.
    rewrite Ti, Tt. inversion H as [r1 d nm ns H1 H2 H3 H4|]; subst.
    cbn [table_id N.eqb Pos.eqb]. unfold bind at 1, bind at 1. rewrite (row_at_run _ _ _ _ _ H1 H2). unfold ret at 1.
    rewrite (string_at_text _ _ _ H3), (string_at_text _ _ _ H4). unfold bind, ok_or, ret. rewrite full_name_qualified, G. reflexivity.
  - destruct (token_parts 0x01 row Hr) as [Ti Tt]; [reflexivity|]. change (0x01 * 2 ^ 24) with 0x01000000 in *.
    rewrite Ti, Tt. inversion H as [|r1 d nm ns H1 H2 H3 H4]; subst.
    cbn [table_id N.eqb Pos.eqb]. unfold bind at 1, bind at 1. rewrite (row_at_run _ _ _ _ _ H1 H2). unfold ret at 1.
    rewrite (string_at_text _ _ _ H3), (string_at_text _ _ _ H4). unfold bind, ok_or, ret. rewrite full_name_qualified, G. reflexivity.
Qed.

Lemma new_clause_run p md s e : consistent p s -> catch_known md s e ->
  exists c, new_clause p md (api_kind (eh_is e)) (eh_try_offset e) (eh_try_length e) (eh_handler_offset e)
    (eh_handler_length e) (eh_operand e) s = Ok c s /\ stands_for md s e c.
Proof.
  intros W K. unfold new_clause, stands_for. unfold catch_known in K. destruct (eh_is e); cbn [api_kind].
  - destruct (K eq_refl) as (n & Hc & Hk). destruct (catch_type_run p md s _ n W Hc Hk) as (t & E & L).
    unfold bind at 1, bind at 1. rewrite E. eexists. split; [reflexivity|]. cbn. repeat (split; [reflexivity|]).
    exists t, n. auto.
  - eexists. split; [reflexivity|]. cbn. auto 10.
  - eexists. split; [reflexivity|]. cbn. auto 10.
  - eexists. split; [reflexivity|]. cbn. auto 10.
Qed.

Definition enc_clause (w1 w2 : N) (e : eh) : list byte :=
  le_enc (N.to_nat w1) (eh_code (eh_is e)) ++ le_enc (N.to_nat w1) (eh_try_offset e) ++ le_enc (N.to_nat w2) (eh_try_length e) ++
  le_enc (N.to_nat w1) (eh_handler_offset e) ++ le_enc (N.to_nat w2) (eh_handler_length e) ++ le_enc (N.to_nat 4) (eh_operand e).
Definition clause_ok (w1 w2 : N) (e : eh) : Prop :=
  eh_try_offset e < 256 ^ w1 /\ eh_try_length e < 256 ^ w2 /\ eh_handler_offset e < 256 ^ w1 /\
  eh_handler_length e < 256 ^ w2 /\ eh_operand e < 256 ^ 4.

Lemma read_clauses_run p md w1 w2 s : consistent p s -> 1 <= w1 -> forall es pre rest,
  Forall (clause_ok w1 w2) es -> Forall (catch_known md s) es -> slice_ok (pre ++ concat (map (enc_clause w1 w2) es) ++ rest) ->
  exists cs, read_clauses p md w1 w2 (List.length es) (here pre (concat (map (enc_clause w1 w2) es) ++ rest)) s = Ok cs s /\
    Forall2 (stands_for md s) es cs.
Proof.
  intros W Hw. induction es as [|e es IH]; intros pre rest F K Hs; cbn [map concat List.length read_clauses] in *.
  - exists []. split; [reflexivity|constructor].
  - inversion F as [|? ? (O1 & O2 & O3 & O4 & O5) F']; subst. inversion K as [|? ? K1 K']; subst.
    destruct (new_clause_run p md s e W K1) as (c & Ec & St).
    assert (Hk : eh_code (eh_is e) < 256 ^ w1).
    { apply N.lt_le_trans with (256 ^ 1); [destruct (eh_is e); reflexivity|apply N.pow_le_mono_r; [discriminate|exact Hw]]. }
    unfold enc_clause in Hs at 1. unfold enc_clause at 1. rewrite <- !app_assoc in *.
    set (R := concat (map (enc_clause w1 w2) es) ++ rest) in *.
    rewrite (wr_bind _ _ _ _ _ _ _ (parses_rd p w1 bad_body _ Hk) Hs).
    assert (Ek : clause_kind_of (eh_code (eh_is e)) = Some (api_kind (eh_is e))) by (destruct (eh_is e); reflexivity).
    rewrite Ek. unfold bind at 1, ok_or, ret at 1. apply slice_shift in Hs.
    rewrite (wr_bind _ _ _ _ _ _ _ (parses_rd p w1 bad_body _ O1) Hs). apply slice_shift in Hs.
    rewrite (wr_bind _ _ _ _ _ _ _ (parses_rd p w2 bad_body _ O2) Hs). apply slice_shift in Hs.
    rewrite (wr_bind _ _ _ _ _ _ _ (parses_rd p w1 bad_body _ O3) Hs). apply slice_shift in Hs.
    rewrite (wr_bind _ _ _ _ _ _ _ (parses_rd p w2 bad_body _ O4) Hs). apply slice_shift in Hs.
    rewrite (wr_bind _ _ _ _ _ _ _ (parses_rd p 4 bad_body _ O5) Hs). apply slice_shift in Hs.
    unfold bind at 1. rewrite Ec. unfold R in *.
    destruct (IH _ rest F' K' Hs) as (cs & Es & St'). exists (c :: cs). split; [|now constructor].
    unfold bind. rewrite Es. reflexivity.
Qed.

Lemma align_run p n : forall f pre rest (s : vm), slice_ok (pre ++ f ++ rest) -> fill (len pre) f -> len f <= N.of_nat n ->
  with_reader (here pre (f ++ rest)) (align4 p n) s = Ok (tt, here (pre ++ f) rest) s.
Proof.
  unfold with_reader. induction n as [|n IH]; intros f pre rest s Hs [H1 H2] Hn.
  - destruct f; [|exfalso; revert Hn; slen; lia]. cbn. now rewrite app_nil_r.
  - cbn [align4]. unfold bind, get_state. cbn [rpos here]. destruct f as [|b f].
    + rewrite len_nil, N.add_0_r in H2. rewrite H2. cbn. now rewrite app_nil_r.
    + destruct (N.eqb_spec (len pre mod 4) 0) as [Z|Z].
      { exfalso. revert H1 H2. slen. intros H1 H2.
        pose proof (N.div_mod (len pre) 4 ltac:(discriminate)). pose proof (N.div_mod (len pre + (1 + len f)) 4 ltac:(discriminate)).
        set (x := len pre / 4) in *. set (y := (len pre + (1 + len f)) / 4) in *. lia. }
      assert (Hb : len pre + 1 < 2 ^ 64) by (unfold slice_ok in Hs; revert Hs; slen; pose proof pow63; pose proof pow64; lia).
      rewrite advance_ok by exact Hb. cbn [rdata here rpos].
      specialize (IH f (pre ++ [b]) rest s). unfold here in IH. rewrite !len_app, <- !app_assoc in IH. cbn [app] in IH.
      change (len [b]) with 1 in IH. unfold here in *. cbn [app]. rewrite IH; [|exact Hs|split|].
      * f_equal. f_equal. rewrite <- app_assoc. cbn [app]. f_equal. slen. lia.
      * revert H1; slen; lia.
      * rewrite <- H2. f_equal. slen. lia.
      * revert Hn; slen; lia.
Qed.

Lemma flag_cases more v : flag more v = v \/ flag more v = 0.
Proof. destruct more; auto. Qed.

Lemma read_section_run p md s more es bs f pre rest : consistent p s ->
  eh_section more es bs -> fill (len pre) f -> Forall (catch_known md s) es -> slice_ok (pre ++ f ++ bs ++ rest) ->
  exists cs, read_section p md (here pre (f ++ bs ++ rest)) s = Ok cs s /\ Forall2 (stands_for md s) es cs.
Proof.
  intros W H Hf K Hs. unfold read_section. unfold bind at 1.
  rewrite align_run; [|exact Hs|exact Hf|destruct Hf; lia]. apply slice_shift in Hs. cbv iota beta.
  set (pre' := pre ++ f) in *. clearbody pre'. clear Hf pre f.
  destruct H as [Fc Hl|Fc Hl].
  - unfold enc_small_section in *.
    change ([nb (1 + flag more 0x80); nb (12 * len es + 4); x00; x00] ++ concat (map enc_small_clause es))
      with ([nb (1 + flag more 0x80)] ++ [nb (12 * len es + 4)] ++ [x00; x00] ++ concat (map enc_small_clause es)) in *.
    rewrite <- !app_assoc in *.
    rewrite (wr_bind _ _ _ _ _ _ _ (parses_rd_bytes p 1 bad_body [nb (1 + flag more 0x80)] eq_refl) Hs). apply slice_shift in Hs.
    assert (E1 : negb (has (le_dec [nb (1 + flag more 128)]) 1) = false /\ has (le_dec [nb (1 + flag more 128)]) 64 = false)
      by (destruct more; split; reflexivity).
    destruct E1 as [-> E1].
    rewrite (wr_bind _ _ _ _ _ _ _ (parses_rd_bytes p 1 bad_body [nb (12 * len es + 4)] eq_refl) Hs). apply slice_shift in Hs.
    rewrite E1. cbn [le_dec]. rewrite N.mul_0_r, N.add_0_r, bn_nb_small by lia.
    assert (Pa : parses (advance p 2 ;;; ret tt) [x00; x00] tt)
      by (apply (parses_skip p 2 [x00; x00] (ret tt) [] tt); [reflexivity|apply parses_ret]).
    assert (Ea : exists b, with_reader (here ((pre' ++ [nb (1 + flag more 128)]) ++ [nb (12 * len es + 4)]) ([x00; x00] ++ concat (map enc_small_clause es) ++ rest))
                   (advance p 2) s = Ok (b, here (((pre' ++ [nb (1 + flag more 128)]) ++ [nb (12 * len es + 4)]) ++ [x00; x00]) (concat (map enc_small_clause es) ++ rest)) s).
    { pose proof (wr (advance p 2 ;;; ret tt) _ _ _ _ s Pa Hs) as X. unfold with_reader, bind in *.
      destruct (advance p 2 _) as [a r| | | |]; cbn [ret] in X; try discriminate X. unfold ret in X.
      injection X as X. exists a. now rewrite X. }
    destruct Ea as [b Ea]. unfold bind at 1. rewrite Ea. cbv iota beta. apply slice_shift in Hs.
    replace (N.to_nat ((12 * len es + 4) / 12)) with (List.length es).
    2:{ replace ((12 * len es + 4) / 12) with (len es); [unfold len; lia|].
        symmetry. rewrite N.add_comm, N.mul_comm, N.div_add by discriminate. reflexivity. }
    change enc_small_clause with (enc_clause 2 1) in *.
    apply read_clauses_run; auto. lia.
  - unfold enc_fat_section in *. change (le_enc 3 (24 * len es + 4)) with ([nb (24 * len es + 4)] ++ le_enc 2 ((24 * len es + 4) / 256)) in *.
    rewrite <- !app_assoc in *.
    rewrite (wr_bind _ _ _ _ _ _ _ (parses_rd_bytes p 1 bad_body [nb (0x41 + flag more 0x80)] eq_refl) Hs). apply slice_shift in Hs.
    assert (E1 : negb (has (le_dec [nb (0x41 + flag more 128)]) 1) = false /\ has (le_dec [nb (0x41 + flag more 128)]) 64 = true)
      by (destruct more; split; reflexivity).
    destruct E1 as [-> E1].
    rewrite (wr_bind _ _ _ _ _ _ _ (parses_rd_bytes p 1 bad_body [nb (24 * len es + 4)] eq_refl) Hs). apply slice_shift in Hs.
    rewrite E1.
    assert (Hh : (24 * len es + 4) / 256 < 256 ^ 2) by (apply N.div_lt_upper_bound; [discriminate|]; change (256 * 256 ^ 2) with (2 ^ 24); lia).
    rewrite (wr_bind _ _ _ _ _ _ _ (parses_rd p 2 bad_body _ Hh) Hs). apply slice_shift in Hs.
    cbn [le_dec]. rewrite N.mul_0_r, N.add_0_r.
    replace (N.to_nat ((bn (nb (24 * len es + 4)) + N.shiftl ((24 * len es + 4) / 256) 8) / 24)) with (List.length es).
    2:{ rewrite N.shiftl_mul_pow2. change (2 ^ 8) with 256.
        replace (bn (nb (24 * len es + 4)) + (24 * len es + 4) / 256 * 256) with (24 * len es + 4).
        - replace ((24 * len es + 4) / 24) with (len es); [unfold len; lia|].
          symmetry. rewrite N.add_comm, N.mul_comm, N.div_add by discriminate. reflexivity.
        - rewrite bn_nb. rewrite (N.div_mod (24 * len es + 4) 256) at 1 by discriminate. lia. }
    change enc_fat_clause with (enc_clause 4 4) in *.
    apply read_clauses_run; auto. lia.
Qed.

(** ** Bodies *)

Lemma body_reader p md rva bs (s : vm) : sections_ok (pi_sections (m_pe_info md)) -> image_at md rva bs ->
  exists off post, map_err (lift (resolve_rva p (m_pe_info md) rva)) "Cannot find method body" s = Ok off s /\
    lift (slice_from (m_pe_data md) off) s = Ok (bs ++ post) s /\ len (bs ++ post) <= len (m_pe_data md).
Proof.
  intros Hs (off & Hm & (pre & post & E & <-)). exists (len pre), post.
  split; [|split].
  - unfold map_err, lift. rewrite (proj2 (maps_to_run p _ rva (len pre) tt Hs) Hm). reflexivity.
  - unfold lift, slice_from. rewrite E. replace (len (pre ++ bs ++ post) <? len pre) with false.
    + unfold ret. rewrite skipn_app_len. reflexivity.
    + symmetry. apply N.ltb_ge. slen. lia.
  - rewrite E. slen. lia.
Qed.

Lemma parses_code p code : parses (read_code p (len code)) code code.
Proof.
  unfold read_code. eapply parses_bind'; [symmetry; apply app_nil_r|apply parses_read_array; lia|]. apply parses_ret.
Qed.

Lemma tiny_run p md rva code s : sections_ok (pi_sections (m_pe_info md)) -> slice_ok (m_pe_data md) ->
  len code < 64 -> image_at md rva (enc_tiny code) ->
  exists init, load_body p md rva s = Ok (mkBody code 8 [] init []) s.
Proof.
  intros Hs Hd Hc Hi. destruct (body_reader p md rva _ s Hs Hi) as (off & post & E1 & E2 & El).
  unfold load_body. unfold bind at 1. rewrite E1. unfold bind at 1. rewrite E2.
  assert (Ho : slice_ok ([] ++ [nb (4 * len code + 2)] ++ code ++ post)).
  { unfold slice_ok, enc_tiny in *. revert El. slen. lia. }
  change (new_reader (enc_tiny code ++ post)) with (here [] ([nb (4 * len code + 2)] ++ code ++ post)).
  rewrite (wr_bind _ _ _ _ _ _ _ (parses_rd_bytes p 1 bad_body [nb (4 * len code + 2)] eq_refl) Ho). apply slice_shift in Ho.
  cbn [le_dec]. rewrite N.mul_0_r, N.add_0_r, bn_nb_small by lia.
  assert (L3 : N.land (4 * len code + 2) 3 = 2).
  { change 3 with (N.ones 2). rewrite N.land_ones. change (2 ^ 2) with 4. rewrite N.add_comm, N.mul_comm, N.mod_add by discriminate. reflexivity. }
  rewrite L3.
  assert (Lc : N.shiftr (N.land (4 * len code + 2) 252) 2 = len code).
  { rewrite N.shiftr_land. change (N.shiftr 252 2) with (N.ones 6). rewrite N.land_ones, N.shiftr_div_pow2. change (2 ^ 2) with 4.
    replace ((4 * len code + 2) / 4) with (len code); [apply N.mod_small; exact Hc|].
    rewrite N.add_comm, N.mul_comm, N.div_add by discriminate. reflexivity. }
  rewrite Lc. rewrite (wr_bind _ _ _ _ _ _ _ (parses_code p code) Ho). eexists. reflexivity.
Qed.

Lemma fat_run p md rva init (more : bool) ms tok code extra ls ns s :
  consistent p s -> sections_ok (pi_sections (m_pe_info md)) -> slice_ok (m_pe_data md) -> slice_ok (m_blob md) ->
  ms < 2 ^ 16 -> tok < 2 ^ 32 -> len code < 2 ^ 32 ->
  image_at md rva (enc_fat init more ms tok code ++ extra) ->
  locals_at md tok ls -> Forall2 (type_name md) ls ns -> Forall type_ok ls -> Forall (element_known md s) ls ->
  room p s (sum (map vectors ls)) ->
  exists ts s', consistent p s' /\ grows (sum (map vectors ls)) s s' /\ Forall2 (latest (c_types s')) ns ts /\
    exists post, slice_ok ((enc_fat init more ms tok code) ++ extra ++ post) /\
    forall cs, (if more then read_section p md (here (enc_fat init more ms tok code) (extra ++ post)) s' = Ok cs s' else cs = []) ->
    load_body p md rva s = Ok (mkBody code ms ts init cs) s'.
Proof.
  intros W Hs Hd Hb Hm Ht Hc Hi Hl F Fo K R.
  destruct (load_locals_run p md tok ls ns s W Hb Hl F Fo K R) as (ts & s' & E & W' & G & L).
  exists ts, s'. split; [exact W'|]. split; [exact G|]. split; [exact L|].
  destruct (body_reader p md rva _ s Hs Hi) as (off & post & E1 & E2 & El). exists post.
  assert (Ho : slice_ok (enc_fat init more ms tok code ++ extra ++ post)).
  { unfold slice_ok in *. rewrite <- app_assoc in El. lia. }
  split; [exact Ho|]. intros cs Hcs.
  unfold load_body. unfold bind at 1. rewrite E1. unfold bind at 1. rewrite E2.
  rewrite <- app_assoc.
  set (b0 := nb (3 + flag more 8 + flag init 16)) in *.
  assert (Hf : enc_fat init more ms tok code = [b0] ++ [x30] ++ le_enc 2 ms ++ le_enc 4 (len code) ++ le_enc 4 tok ++ code) by reflexivity.
  unfold new_reader. change (mkReader (enc_fat init more ms tok code ++ extra ++ post) 0)
    with (here [] (enc_fat init more ms tok code ++ extra ++ post)).
  assert (Hcs' : if more then read_section p md (here ((((((([] ++ [b0]) ++ [x30]) ++ le_enc 2 ms) ++ le_enc 4 (len code)) ++ le_enc 4 tok)) ++ code) (extra ++ post)) s' = Ok cs s' else cs = []).
  { rewrite <- !app_assoc. cbn [app]. rewrite Hf in Hcs. exact Hcs. }
  clear Hcs. rewrite Hf in *. rewrite <- !app_assoc in *.
  change ([b0] ++ ?x) with ([] ++ [b0] ++ x) in Ho.
  rewrite (wr_bind _ _ _ _ _ _ _ (parses_rd_bytes p 1 bad_body [b0] eq_refl) Ho). apply slice_shift in Ho.
  assert (Hb0 : N.land (le_dec [b0]) 3 = 3 /\ has (le_dec [b0]) 8 = more /\ has (le_dec [b0]) 16 = init)
    by (unfold b0; destruct more, init; repeat split; reflexivity).
  destruct Hb0 as (B1 & B2 & B3). rewrite B1, B2, B3. clearbody b0. clear B1 B2 B3 Hf.
  assert (Ea : exists b, with_reader (here ([] ++ [b0]) ([x30] ++ le_enc 2 ms ++ le_enc 4 (len code) ++ le_enc 4 tok ++ code ++ extra ++ post)) (advance p 1) s
      = Ok (b, here (([] ++ [b0]) ++ [x30]) (le_enc 2 ms ++ le_enc 4 (len code) ++ le_enc 4 tok ++ code ++ extra ++ post)) s).
  { assert (Pa : parses (advance p 1 ;;; ret tt) [x30] tt)
      by (apply (parses_skip p 1 [x30] (ret tt) [] tt); [reflexivity|apply parses_ret]).
    pose proof (wr (advance p 1 ;;; ret tt) _ _ _ _ s Pa Ho) as X. unfold with_reader, bind in *.
    destruct (advance p 1 _) as [a r| | | |]; cbn [ret] in X; try discriminate X. unfold ret in X.
    injection X as X. exists a. now rewrite X. }
  destruct Ea as [bb Ea]. unfold bind at 1. rewrite Ea. cbv iota beta. apply slice_shift in Ho.
  rewrite (wr_bind _ _ _ _ _ _ _ (parses_rd p 2 bad_body _ (Hm : ms < 256 ^ 2)) Ho). apply slice_shift in Ho.
  rewrite (wr_bind _ _ _ _ _ _ _ (parses_rd p 4 bad_body _ (Hc : len code < 256 ^ 4)) Ho). apply slice_shift in Ho.
  rewrite (wr_bind _ _ _ _ _ _ _ (parses_rd p 4 bad_body _ (Ht : tok < 256 ^ 4)) Ho). apply slice_shift in Ho.
  unfold bind at 1. rewrite E.
  rewrite (wr_bind _ _ _ _ _ _ _ (parses_code p code) Ho).
  rewrite <- !app_assoc. destruct more; [unfold bind; rewrite Hcs'; reflexivity|subst cs; reflexivity].
Qed.

(** ** Names are unique *)

Lemma row_name_det md tab row n n' : row_name md tab row n -> row_name md tab row n' -> n = n'.
Proof.
  intros H H'. pose proof (row_name_run Debug md tab row n (empty_vm []) H) as E.
  rewrite (row_name_run Debug md tab row n' (empty_vm []) H') in E. now injection E.
Qed.
Lemma type_name_det md t n n' : type_name md t n -> type_name md t n' -> n = n'.
Proof.
  intro H. revert n'. induction H; intros n' H'; inversion H'; subst; eauto using row_name_det.
  - congruence.
  - f_equal. auto.
Qed.
Lemma element_known_intro md s t n : type_name md t n -> known s n -> (forall u, t <> TSzArray u) -> element_known md s t.
Proof.
  intros H K Hv. destruct t; cbn; try (intros n' H'; now rewrite (type_name_det _ _ _ _ H' H)).
  destruct (Hv t eq_refl).
Qed.

(** ** Kinds of locals that the loader gives up on *)

Lemma first_local_run p md tok t ls s : consistent p s -> slice_ok (m_blob md) -> locals_at md tok (t :: ls) -> faithful t ->
  exists k, load_locals p md tok s = bind (type_for_element p md (api_type t)) k s.
Proof.
  intros W Hs H Ft. unfold load_locals. inversion H as [|row rec ls' H1 H2 H3 H4 H5]; subst.
  destruct (token_parts 0x11 row H2) as [Ti _]; [reflexivity|]. change (0x11 * 2 ^ 24) with 0x11000000 in Ti. rewrite Ti.
  destruct (N.eqb_spec row 0); [lia|].
  unfold bind at 1. rewrite (row_at_run _ _ _ _ _ H1 H3).
  unfold bind at 1, map_err at 1, lift. rewrite (heap_blob_reader p _ _ _ Hs H4).
  set (lst := t :: ls) in *.
  unfold enc_local_sig. change (x07 :: compress (len lst) ++ concat (map enc_type lst)) with ([x07] ++ compress (len lst) ++ concat (map enc_type lst)).
  assert (Hb : slice_ok ([x07] ++ compress (len lst) ++ concat (map enc_type lst))).
  { destruct H4 as [(pre & post & E & _) _]. rewrite E in Hs. apply slice_ok_part in Hs.
    unfold slice_ok in *. rewrite len_app in Hs. unfold enc_local_sig in Hs. cbn [app]. lia. }
  unfold bind at 1, map_err at 1.
  rewrite (wr (rd p 1 blob_eof) [x07] 7 [] (compress (len lst) ++ concat (map enc_type lst)) s);
    [|apply (parses_rd_bytes p 1 blob_eof [x07]); reflexivity|exact Hb].
  cbn [N.eqb Pos.eqb negb]. cbn [app].
  unfold bind at 1, map_err at 1.
  rewrite (wr (read_compressed_u32 p) (compress (len lst)) (len lst) [x07] (concat (map enc_type lst)) s);
    [|now apply parses_compress|exact Hb].
  cbv iota beta.
  replace (N.to_nat (len lst)) with (S (List.length ls)) by (subst lst; unfold len; cbn [List.length]; lia).
  cbn [read_locals]. unfold lst. cbn [map concat].
  unfold bind at 1, map_err at 1.
  assert (P : parses (read_element_type p) (enc_type t) (api_type t)) by (now apply parses_faithful).
  rewrite (wr (read_element_type p) (enc_type t) (api_type t) ([x07] ++ compress (len (t :: ls))) (concat (map enc_type ls)) s P).
  2:{ rewrite <- app_assoc. unfold lst in Hb. cbn [map concat] in Hb. exact Hb. }
  eexists. reflexivity.
Qed.

Lemma fat_locals p md rva init (more : bool) ms tok code s :
  sections_ok (pi_sections (m_pe_info md)) -> slice_ok (m_pe_data md) ->
  ms < 2 ^ 16 -> tok < 2 ^ 32 -> len code < 2 ^ 32 -> image_at md rva (enc_fat init more ms tok code) ->
  exists k, load_body p md rva s = bind (load_locals p md tok) k s.
Proof.
  intros Hs Hd Hm Ht Hc Hi.
  destruct (body_reader p md rva _ s Hs Hi) as (off & post & E1 & E2 & El).
  assert (Ho : slice_ok (enc_fat init more ms tok code ++ post)) by (unfold slice_ok in *; lia).
  unfold load_body. unfold bind at 1. rewrite E1. unfold bind at 1. rewrite E2.
  set (b0 := nb (3 + flag more 8 + flag init 16)) in *.
  assert (Hf : enc_fat init more ms tok code = [b0] ++ [x30] ++ le_enc 2 ms ++ le_enc 4 (len code) ++ le_enc 4 tok ++ code) by reflexivity.
  unfold new_reader. change (mkReader (enc_fat init more ms tok code ++ post) 0)
    with (here [] (enc_fat init more ms tok code ++ post)).
  rewrite Hf in *. rewrite <- !app_assoc in *.
  change ([b0] ++ ?x) with ([] ++ [b0] ++ x) in Ho.
  rewrite (wr_bind _ _ _ _ _ _ _ (parses_rd_bytes p 1 bad_body [b0] eq_refl) Ho). apply slice_shift in Ho.
  assert (Hb0 : N.land (le_dec [b0]) 3 = 3) by (unfold b0; destruct more, init; reflexivity).
  rewrite Hb0.
  assert (Ea : exists b, with_reader (here ([] ++ [b0]) ([x30] ++ le_enc 2 ms ++ le_enc 4 (len code) ++ le_enc 4 tok ++ code ++ post)) (advance p 1) s
      = Ok (b, here (([] ++ [b0]) ++ [x30]) (le_enc 2 ms ++ le_enc 4 (len code) ++ le_enc 4 tok ++ code ++ post)) s).
  { assert (Pa : parses (advance p 1 ;;; ret tt) [x30] tt)
      by (apply (parses_skip p 1 [x30] (ret tt) [] tt); [reflexivity|apply parses_ret]).
    pose proof (wr (advance p 1 ;;; ret tt) _ _ _ _ s Pa Ho) as X. unfold with_reader, bind in *.
    destruct (advance p 1 _) as [a r| | | |]; cbn [ret] in X; try discriminate X. unfold ret in X.
    injection X as X. exists a. now rewrite X. }
  destruct Ea as [bb Ea]. unfold bind at 1. rewrite Ea. cbv iota beta. apply slice_shift in Ho.
  rewrite (wr_bind _ _ _ _ _ _ _ (parses_rd p 2 bad_body _ (Hm : ms < 256 ^ 2)) Ho). apply slice_shift in Ho.
  rewrite (wr_bind _ _ _ _ _ _ _ (parses_rd p 4 bad_body _ (Hc : len code < 256 ^ 4)) Ho). apply slice_shift in Ho.
  rewrite (wr_bind _ _ _ _ _ _ _ (parses_rd p 4 bad_body _ (Ht : tok < 256 ^ 4)) Ho).
  eexists. reflexivity.
Qed.

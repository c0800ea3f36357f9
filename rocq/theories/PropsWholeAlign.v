(** Reading the metadata of a whole image where it lies in memory: C87. *)
From Coq Require Import NArith ZArith String List Bool Lia.
From Coq.Strings Require Import Byte.
From Verif Require Import Base BinaryReader ParseSpec BaseFacts ReaderFacts SpecBytes SpecUtf Utf UtfProofs ReaderProofs Pe SpecPe PeProofs.
From Verif Require Import Blob Metadata SpecMetadata MetadataProofs PropsMetadata Tables SpecTables TablesApi TablesProofs.
From Verif Require Import Aligned AlignedImage SpecImageAlign SpecWholeAlign AlignedFacts PropsImageAlign.
Import ListNotations.
Open Scope N_scope.

(** ** The root *)

Fixpoint headers_suit_b (base off : N) (l : list stream_entry) : bool :=
  match l with
  | [] => true
  | e :: l' => ((base + off) mod 4 =? 0) && headers_suit_b base (next4 (off + 8 + len (stream_text (se_kind e)))) l'
  end.
Lemma headers_suit_b_spec base l : forall off, headers_suit_b base off l = true <-> headers_suit base off l.
Proof.
  induction l as [|e l IH]; intro off; cbn [headers_suit_b headers_suit]; [tauto|].
  rewrite andb_true_iff, N.eqb_eq, IH. tauto.
Qed.

Lemma rd_at_found base p n e data pos v : slice_ok data -> u_at data pos n v ->
  Aligned.rd_at base p n e (mkReader data pos) = if (base + pos) mod n =? 0 then Ok v (mkReader data (pos + n)) else Ub misaligned.
Proof.
  intros Hs U. pose proof (MetadataProofs.rd_at p n e data pos v Hs U) as R. unfold rd in R.
  apply bind_inv_ok in R as ([d|] & r & E & R); [|discriminate R].
  unfold Aligned.rd_at, read_at, bind. rewrite (typed_some _ _ _ _ _ _ E). cbn [rpos].
  destruct (_ =? 0); [exact R|reflexivity].
Qed.
Lemma headers_at_found base p md es : forall off s, slice_ok md -> headers_at md off es ->
  exists k, read_stream_headers_at base p (List.length es) s (mkReader md off) =
    if headers_suit_b base off es then Ok (fold_left collect1 es s) (mkReader md k) else Ub misaligned.
Proof.
  induction es as [|e es IH]; intros off s Hs H.
  - exists off. reflexivity.
  - cbn [headers_at seq_at] in H. destruct H as ((U1 & U2 & _) & Hb & Hr).
    destruct (IH _ (collect1 s e) Hs Hr) as [k Hk]. exists k.
    cbn [List.length read_stream_headers_at fold_left headers_suit_b].
    unfold bind at 1. rewrite (rd_at_found base p 4 bad_header md off _ Hs U1).
    destruct (N.eqb_spec ((base + off) mod 4) 0) as [A|A]; cbn [andb]; [|reflexivity].
    unfold bind at 1. rewrite (rd_at_found base p 4 bad_header md _ _ Hs U2).
    rewrite (mod_shift base (off + 4) off 1 4), A by (try discriminate; lia). cbn [N.eqb].
    replace (off + 4 + 4) with (off + 8) in * by lia.
    destruct (read_c_str_spec p md (off + 8) (stream_text (se_kind e)) Hs Hb (stream_text_nonul _)) as [G _].
    rewrite (bind_ok _ _ _ _ _ (G (proj1 (utf8_valid_spec _) (stream_text_utf8 _)))).
    unfold bind at 1, ok_or, ret at 1.
    unfold bind at 1, get_state at 1. cbn [rpos].
    unfold bind at 1, goto at 1. cbn [rdata rpos]. rewrite ldiff4.
    change ({| st_offset := se_offset e; st_size := se_size e |}) with (entry_header e).
    rewrite (bind_ok _ _ _ _ _ (set_stream_text e s _)).
    exact Hk.
Qed.
Definition root_suits_b base v es : bool :=
  (base mod 4 =? 0) && ((base + (16 + v + 2)) mod 2 =? 0) && headers_suit_b base (16 + v + 4) es.
Lemma root_suits_b_spec base v es : root_suits_b base v es = true <-> root_suits base v es.
Proof. unfold root_suits_b, root_suits. rewrite !andb_true_iff, !N.eqb_eq, headers_suit_b_spec. tauto. Qed.
Lemma root_at_found base p md es v : slice_ok md -> root_at md es -> u_at md 12 4 v ->
  exists k, read_root_at base p (mkReader md 0) =
    if root_suits_b base v es then Ok (fold_left collect1 es no_streams) (mkReader md k) else Ub misaligned.
Proof.
  intros Hs (text & pad & Hsig & Hlen & Hv & Hu & Hn & Hp & Hc & Hh) Hlen'.
  rewrite <- (u_at_unique _ _ _ _ _ Hlen Hlen'). clear v Hlen'.
  assert (len md < 2 ^ 63) as Hl by exact Hs. rewrite pow63 in Hl.
  pose proof (bytes_at_bound _ _ _ Hv) as B1. pose proof (u_at_bound _ _ _ _ Hc) as B2.
  set (v := len (text ++ pad)) in *.
  destruct (headers_at_found base p md es (16 + v + 4) no_streams Hs Hh) as [k Hk]. exists k.
  unfold read_root_at, root_suits_b.
  destruct (read_spec p 4 md 0 Hs ltac:(rewrite pow64; lia)) as [R _].
  unfold bind at 1. unfold read_at at 1. rewrite (typed_some _ _ _ _ _ _ (proj1 (R _ Hsig eq_refl))). clear R.
  cbn [rpos]. rewrite N.add_0_r. destruct (N.eqb_spec (base mod 4) 0) as [A|A]; cbn [andb]; [|reflexivity].
  change (le_dec [x42; x53; x4a; x42] =? 0x424A5342) with true. cbv iota.
  unfold bind at 1, ret at 1.
  rewrite (bind_ok _ _ (mkReader md (0 + 4)) true (mkReader md (0 + 4 + 8))).
  2:{ apply advance_at; rewrite ?pow64; lia. }
  cbv beta iota delta [negb]. unfold bind at 1, ret at 1.
  change (0 + 4 + 8) with 12.
  unfold bind at 1. rewrite (rd_at_found base p 4 bad_header md 12 _ Hs Hlen).
  rewrite (mod_shift base 12 0 3 4), N.add_0_r, A by (try discriminate; reflexivity). cbn [N.eqb].
  change (12 + 4) with 16.
  rewrite (bind_ok _ _ _ _ _ (read_str_spec p md 16 text pad Hs Hn Hv Hp Hu)).
  unfold bind at 1, ok_or, ret at 1. fold v.
  rewrite (bind_ok _ _ (mkReader md (16 + v)) true (mkReader md (16 + v + 2))).
  2:{ apply advance_at; rewrite ?pow64; lia. }
  unfold bind at 1. rewrite (rd_at_found base p 2 bad_header md (16 + v + 2) _ Hs Hc).
  destruct ((base + (16 + v + 2)) mod 2 =? 0); cbn [andb]; [|reflexivity].
  rewrite to_nat_len. replace (16 + v + 2 + 2) with (16 + v + 4) by lia. exact Hk.
Qed.

(** ** Nothing else *)

Lemma guards_on_reader {A} r (m' m : M reader A) : guards m' m -> guards (on_reader r m') (on_reader r m).
Proof. intros H u. unfold on_reader. destruct (H r) as [->| ->]; [now left|now right]. Qed.
Lemma guards_headers base p n : forall s, guards (read_stream_headers_at base p n s) (read_stream_headers p n s).
Proof.
  induction n as [|n IH]; intro s; cbn [read_stream_headers_at read_stream_headers]; [apply guards_refl|].
  simple apply guards_bind; [apply guards_rd|intro]. simple apply guards_bind; [apply guards_rd|intro].
  do 5 (simple apply guards_bind; [apply guards_refl|intro]). apply IH.
Qed.
Lemma guards_root base p : guards (read_root_at base p) (read_root p).
Proof.
  unfold read_root_at, read_root.
  simple apply guards_bind; [apply guards_typed|intro].
  do 3 (simple apply guards_bind; [apply guards_refl|intro]). simple apply guards_bind; [apply guards_rd|intro].
  do 3 (simple apply guards_bind; [apply guards_refl|intro]). simple apply guards_bind; [apply guards_rd|intro].
  apply guards_headers.
Qed.

(** Whatever the bytes are: reading the metadata of an image at an address does what it does elsewhere in this
    model, or is undefined. *)
Theorem C87_image_nothing_else base p data :
  read_metadata_at base p data tt = read_metadata p data tt \/ read_metadata_at base p data tt = Ub misaligned.
Proof.
  revert data. cut (forall data, guards (read_metadata_at base p data) (read_metadata p data)); [intros H data; apply H|]. intro data.
  unfold read_metadata_at, read_metadata. cbv zeta.
  simple apply guards_bind; [apply guards_on_reader, guards_pe|intro].
  do 3 (simple apply guards_bind; [apply guards_refl|intro]).
  simple apply guards_bind; [apply guards_on_reader, guards_typed|intro].
  do 3 (simple apply guards_bind; [apply guards_refl|intro]).
  simple apply guards_bind; [apply guards_on_reader, guards_root|intro].
  do 9 (simple apply guards_bind; [apply guards_refl|intro]).
  simple apply guards_bind; [apply guards_on_reader, guards_stream|intro]. apply guards_refl.
Qed.
Example C87_image_nothing_else_example : read_metadata_at 7 Debug [x4d] tt = Err "Not a PE file" tt /\
  read_metadata_at 4097 Debug demo tt = Ub misaligned.
Proof. split; reflexivity. Qed.

(** ** The whole image *)

(** An image with metadata in it is read correctly if all its parts are aligned, and reading it is undefined
    if one is not.  (The other hypotheses are those of C08.) *)
Theorem C87_image p data pi md token rr rz es strings us blob guid tdata T :
  slice_ok data -> image_metadata data pi md token rr rz -> root_at md es -> one_each es ->
  designates md es SStrings strings -> designates md es SBlob blob ->
  designates md es SGuid guid -> designates md es STables tdata ->
  (designates md es SUserStrings us \/ (us = [] /\ forall e, In e es -> se_kind e <> SUserStrings)) ->
  stream_bytes T tdata ->
  (forall k, settled (fun t => len (rows_of T t)) k) ->
  (forall x, In x (tb_custom_attribute T) -> ref_table (ca_parent x) <> TDeclSecurity) ->
  exists m lfanew dir cli_off md_off version tables_off bs bg bb listed,
    read_metadata p data tt = Ok m tt /\ m_tables m = T /\
    u_at data 0x3c 4 lfanew /\
    nth_error (pi_data_directories pi) 14 = Some dir /\ maps_to pi (rs_rva dir) cli_off /\
    bytes_at data md_off md /\ u_at md 12 4 version /\ bytes_at md tables_off tdata /\
    nth_error tdata 6 = Some (nb (bit bs 0 + bit bg 1 + bit bb 2)) /\
    forall base,
      let fits := image_suits base lfanew (o_pe64 (pi_optional_header pi)) cli_off md_off version es tables_off
                    (stream_parts (sizes_of bs bg bb T) listed T) in
      (fits -> read_metadata_at base p data tt = Ok m tt) /\
      (~ fits -> read_metadata_at base p data tt = Ub misaligned).
Proof.
  intros Hs (Hpe & Hsec & dir & cli_off & md_rva & md_off & Hdir & Hcli & Hch & Hmd & Hb) Hroot Hone
    Dstr Dblob Dguid Dtab Dus Hst Hset Hsup.
  destruct (C87_stream p T tdata Hst Hset Hsup) as (bs & bg & bb & listed & H6 & _ & Htab).
  remember (stream_parts (sizes_of bs bg bb T) listed T) as parts eqn:Eparts in Htab.
  assert (slice_ok tdata) as St.
  { pose proof (bytes_at_bound _ _ _ Hb). destruct Dtab as (e & _ & _ & B2 & _). apply bytes_at_bound in B2.
    apply (slice_ok_shorter (d := data)); [lia|auto]. }
  pose proof (parses_stream p T tdata Hst Hset Hsup [] []) as Pt. rewrite app_nil_r in Pt. cbn [app] in Pt. specialize (Pt St).
  assert (Htab' : forall base, exists r, read_table_stream_at base p (mkReader tdata 0) = if suits_b base parts then Ok T r else Ub misaligned).
  { intro base. specialize (Htab base [] []). rewrite app_nil_r in Htab. cbn [app] in Htab. change (len (@nil byte)) with 0 in Htab.
    rewrite N.add_0_r in Htab. destruct (Htab St) as [Y Z]. pose proof (suits_b_spec parts base) as B.
    destruct (suits_b base parts).
    - eexists. apply Y, B. reflexivity.
    - exists (mkReader [] 0). apply Z. intro X. apply B in X. discriminate X. }
  clear Htab.
  destruct (parse_pe_layout p data pi Hs Hpe) as [r0 Epe].
  destruct (C87_headers p data pi r0 Hs Epe) as (lfanew & Hlf & Hpe_at).
  destruct Hroot as (text & pad & Hroot). assert (Hver : u_at md 12 4 (len (text ++ pad))) by tauto.
  assert (Hroot' : root_at md es) by (exists text, pad; exact Hroot). clear Hroot. rename Hroot' into Hroot.
  set (version := len (text ++ pad)) in *. clearbody version. clear text pad.
  destruct Dtab as (e5 & I5 & K5 & B5 & L5).
  assert (Dtab : designates md es STables tdata) by (exists e5; auto).
  pose proof (read_metadata_run p data pi md token rr rz es strings us blob guid tdata T _ Hs
    (conj Hpe (conj Hsec (ex_intro _ dir (ex_intro _ cli_off (ex_intro _ md_rva (ex_intro _ md_off
      (conj Hdir (conj Hcli (conj Hch (conj Hmd Hb)))))))))) Hroot Hone Dstr Dblob Dguid Dtab Dus Pt) as (md_rva' & Em).
  eexists. exists lfanew, dir, cli_off, md_off, version, (se_offset e5), bs, bg, bb, listed.
  split; [exact Em|]. split; [reflexivity|]. split; [exact Hlf|]. split; [exact Hdir|]. split; [exact Hcli|]. split; [exact Hb|].
  split; [exact Hver|]. split; [exact B5|]. split; [exact H6|].
  rewrite <- Eparts. intro base. cbv zeta.
  destruct (Htab' (base + md_off + se_offset e5)) as [rt Et]. clear Htab'.
  assert (Hsm : slice_ok md).
  { apply (slice_ok_shorter (d := data)); [|auto]. apply bytes_at_bound in Hb. lia. }
  destruct (root_at_found (base + md_off) p md es version Hsm Hroot Hver) as [k Er].
  set (pe_b := (base mod 4 =? 0) && ((base + lfanew) mod (if o_pe64 (pi_optional_header pi) then 8 else 4) =? 0)).
  assert (Epe' : parse_pe_m_at base p (new_reader data) = if pe_b then Ok pi r0 else Ub misaligned).
  { destruct (Hpe_at base) as [Y Z]. unfold parse_pe_at in Y, Z. destruct pe_b eqn:B.
    - apply Y. unfold pe_b in B. apply andb_true_iff in B as [B1 B2]. split; now apply N.eqb_eq.
    - apply Z. intros [B1 B2]. unfold pe_b in B. rewrite B1, B2 in B. discriminate B. }
  assert (F : read_metadata_at base p data tt =
    if pe_b && (((base + cli_off) mod 4 =? 0) && (root_suits_b (base + md_off) version es && suits_b (base + md_off + se_offset e5) parts))
    then Ok (metadata_of data pi (cli_of md_rva (len md) token rr rz) strings us blob guid T) tt else Ub misaligned).
  { unfold read_metadata_at.
    unfold bind at 1. unfold on_reader at 1. rewrite Epe'. destruct pe_b; cbn [andb]; [|reflexivity].
    rewrite (bind_ok _ _ tt dir tt) by (unfold ok_or; now rewrite Hdir).
    pose proof (proj2 (maps_to_run p _ _ _ tt Hsec) Hcli) as Ecli.
    rewrite (bind_ok _ _ tt cli_off tt) by (unfold map_err; now rewrite Ecli).
    destruct Hch as (L72 & Hch1 & Hch2).
    destruct (read_cli_header p data cli_off Hs ltac:(lia)) as (hdr & Eh & x & Ex & Hx).
    rewrite (bind_ok _ _ _ _ _ Eh).
    destruct x as [d|]; [|lia]. destruct Hx as [_ Hx].
    unfold on_reader at 1 in Ex. destruct (read p CLI_HEADER_SIZE (new_reader hdr)) as [o rh| | | |] eqn:Eo; try discriminate Ex.
    injection Ex as ->.
    unfold bind at 1. unfold on_reader at 1, read_at at 1. rewrite (typed_some _ _ _ _ _ _ Eo). cbn [rpos new_reader]. rewrite N.add_0_r.
    destruct ((base + cli_off) mod 4 =? 0); cbn [andb]; [|reflexivity].
    unfold bind at 1, ok_or, ret at 1.
    rewrite (proj1 (Hx md_rva (len md) token rr rz) (conj L72 (conj Hch1 Hch2))).
    cbn [ch_metadata cli_of rs_rva rs_size].
    pose proof (proj2 (maps_to_run p _ _ _ tt Hsec) Hmd) as Emd.
    rewrite (bind_ok _ _ tt md_off tt) by (unfold map_err; now rewrite Emd).
    rewrite (bind_ok _ _ _ _ _ (slice_range_at data md_off md Hb)).
    assert (len md < 2 ^ 32) as Lmd.
    { cbn [seq_at] in Hch1. destruct Hch1 as (_ & (bs' & _ & Lb & E) & _). rewrite E.
      pose proof (le_dec_bound bs') as B. rewrite Lb in B. exact B. }
    unfold bind at 1. unfold on_reader at 1, new_reader at 1. rewrite Er.
    destruct (root_suits_b (base + md_off) version es); cbn [andb]; [|reflexivity].
    assert (forall k0 c, designates md es k0 c -> exists e, hd k0 (fold_left collect1 es no_streams) = Some (entry_header e) /\
              stream_slice p md (entry_header e) tt = Ok c tt) as Hget.
    { intros k0 c (e & Hi & Hk & Hbb & Hlc). exists e. split; [now apply hd_fold_one|].
      now apply stream_slice_at. }
    destruct (Hget _ _ Dstr) as (e1 & E1 & S1). cbn [hd] in E1. rewrite E1.
    unfold unwrap at 1. unfold bind at 1, ret at 1. rewrite (bind_ok _ _ _ _ _ S1).
    assert (match hd_us (fold_left collect1 es no_streams) with
            | Some h => stream_slice p md h | None => ret [] end tt = Ok us tt) as Eus.
    { destruct Dus as [Dus|[-> Hno]].
      - destruct (Hget _ _ Dus) as (e2 & E2 & S2). cbn [hd] in E2. now rewrite E2.
      - pose proof (hd_fold_none SUserStrings es no_streams Hno) as E2. cbn [hd] in E2. now rewrite E2. }
    rewrite (bind_ok _ _ _ _ _ Eus).
    destruct (Hget _ _ Dblob) as (e3 & E3 & S3). cbn [hd] in E3. rewrite E3.
    unfold unwrap at 1. unfold bind at 1, ret at 1. rewrite (bind_ok _ _ _ _ _ S3).
    destruct (Hget _ _ Dguid) as (e4 & E4 & S4). cbn [hd] in E4. rewrite E4.
    unfold unwrap at 1. unfold bind at 1, ret at 1. rewrite (bind_ok _ _ _ _ _ S4).
    pose proof (hd_fold_one STables es e5 no_streams Hone I5 K5) as E5. cbn [hd] in E5. rewrite E5.
    unfold unwrap at 1. unfold bind at 1, ret at 1. rewrite (bind_ok _ _ _ _ _ (stream_slice_at p md e5 tdata Lmd B5 L5)).
    unfold bind at 1. unfold on_reader at 1, new_reader at 1. change (st_offset (entry_header e5)) with (se_offset e5).
    rewrite Et. destruct (suits_b (base + md_off + se_offset e5) parts); reflexivity. }
  pose proof (C87_image_nothing_else base p data) as G. rewrite F in G |- *. rewrite Em in G. clear F Em. unfold image_suits. rewrite <- root_suits_b_spec, <- suits_b_spec.
  destruct pe_b eqn:B1; cbn [andb] in *.
  2:{ split; [|reflexivity]. intros [[X Y] _]. unfold pe_b in B1. rewrite X, Y in B1. discriminate B1. }
  unfold pe_b in B1. apply andb_true_iff in B1 as [B1 B1']. apply N.eqb_eq in B1, B1'.
  destruct (N.eqb_spec ((base + cli_off) mod 4) 0) as [B2|B2]; cbn [andb] in *; [|split; [tauto|reflexivity]].
  destruct (root_suits_b (base + md_off) version es); cbn [andb] in *; [|split; [intros (_ & _ & X & _); discriminate X|reflexivity]].
  destruct (suits_b (base + md_off + se_offset e5) parts); [|split; [intros (_ & _ & _ & X); discriminate X|reflexivity]].
  destruct G as [G|G]; [|discriminate G]. split; [intros _; exact G|]. intro X. elim X. auto.
Qed.

(** "What is read from an image is aligned" is false of every image in which all offsets and row numbers are
    stored in two bytes and which has two types, two methods or two rows of another of these tables: wherever it is
    in memory, reading it is undefined. *)
Theorem C87_image_refuted p data pi md token rr rz es strings us blob guid tdata T bs bg bb t :
  slice_ok data -> image_metadata data pi md token rr rz -> root_at md es -> one_each es ->
  designates md es SStrings strings -> designates md es SBlob blob ->
  designates md es SGuid guid -> designates md es STables tdata ->
  (designates md es SUserStrings us \/ (us = [] /\ forall e, In e es -> se_kind e <> SUserStrings)) ->
  stream_bytes T tdata ->
  (forall k, settled (fun t => len (rows_of T t)) k) ->
  (forall x, In x (tb_custom_attribute T) -> ref_table (ca_parent x) <> TDeclSecurity) ->
  nth_error tdata 6 = Some (nb (bit bs 0 + bit bg 1 + bit bb 2)) ->
  narrow (sizes_of bs bg bb T) ->
  In t [TTypeDef; TMethodDef; TFieldLayout; TFieldRva; TAssembly; TAssemblyRefProcessor; TAssemblyRefOs; TExportedType] ->
  2 <= len (rows_of T t) ->
  forall base, read_metadata_at base p data tt = Ub misaligned.
Proof.
  intros H1 H2 H3 H4 H5 H6 H7 H8 H9 H10 H11 H12 Hf Hn Hin L base.
  destruct (C87_image p data pi md token rr rz es strings us blob guid tdata T H1 H2 H3 H4 H5 H6 H7 H8 H9 H10 H11 H12)
    as (m & lfanew & dir & cli_off & md_off & version & tables_off & s' & g' & b' & listed & _ & _ & _ & _ & _ & _ & _ & _ & Hf' & F).
  rewrite Hf in Hf'. injection Hf' as Hf'. apply flags_unique in Hf' as (<- & <- & <-).
  apply F. intros (_ & _ & _ & S). unfold stream_parts in S. apply suits_app in S as [_ S].
  destruct (usual_rows _ t Hn Hin) as [I M]. exact (rows_never_suit _ T t 4 _ L I M S).
Qed.

(** A root with a version field of four bytes, and the tables of [two_rows]. *)
Definition whole_entries : list stream_entry :=
  [{| se_kind := SBlob; se_offset := 92; se_size := 3 |};
   {| se_kind := STables; se_offset := 96; se_size := 40 |};
   {| se_kind := SGuid; se_offset := 95; se_size := 1 |};
   {| se_kind := SStrings; se_offset := 88; se_size := 4 |}].
Definition whole_md : list byte :=
  [x42; x53; x4a; x42] ++ repeat x01 8 ++ le_enc 4 4 ++ [x76; x34; x00; x00] ++ [x00; x00; x04; x00] ++
  le_enc 4 92 ++ le_enc 4 3 ++ stream_text SBlob ++ [x00; x00; x00] ++
  le_enc 4 96 ++ le_enc 4 40 ++ stream_text STables ++ [x00; x00] ++
  le_enc 4 95 ++ le_enc 4 1 ++ stream_text SGuid ++ [x00; x00; x00] ++
  le_enc 4 88 ++ le_enc 4 4 ++ stream_text SStrings ++ [x00; x00; x00; x00] ++
  [x00; x41; x00; x42] ++ [x01; x02; x03] ++ [x0a] ++ two_rows_bytes.
Definition whole : list byte := demo_image 0x158 (72 + len whole_md) 0x1048 (len whole_md) 0x06000001 whole_md.

Lemma whole_root : root_at whole_md whole_entries.
Proof.
  exists [x76; x34], [x00; x00].
  repeat match goal with |- _ /\ _ => split end; try at_here.
  - apply utf8_valid_spec. reflexivity.
  - cbn. intuition discriminate.
  - right. eauto.
  - cbn [headers_at whole_entries seq_at se_offset se_size se_kind].
    repeat match goal with |- _ /\ _ => split end; try exact I; at_here.
Qed.
Lemma whole_metadata : exists pi, image_metadata whole pi whole_md 0x06000001 0 0.
Proof.
  destruct (pe_result whole) as [pi|] eqn:E; [|vm_compute in E; discriminate].
  exists pi. split; [now apply pe_result_layout|]. vm_compute in E. injection E as <-.
  split.
  { constructor; [|constructor]. split; vm_compute; [reflexivity|discriminate]. }
  exists {| rs_rva := 0x1000; rs_size := 0x48 |}, 0x158, 0x1048, 0x1a0. split; [reflexivity|].
  split; [eexists; split; [exists [], []; split; [reflexivity|]; split; [vm_compute; split; [discriminate|reflexivity]|constructor]|reflexivity]|].
  split.
  { unfold cli_header_at. cbn [seq_at]. split; [vm_compute; discriminate|].
    repeat match goal with |- _ /\ _ => split end; try exact I; at_here. }
  split; [eexists; split; [exists [], []; split; [reflexivity|]; split; [vm_compute; split; [discriminate|reflexivity]|constructor]|reflexivity]|at_here].
Qed.

Example C87_image_example : slice_ok whole /\ (exists pi, image_metadata whole pi whole_md 0x06000001 0 0) /\
  root_at whole_md whole_entries /\ one_each whole_entries /\
  designates whole_md whole_entries SStrings [x00; x41; x00; x42] /\
  designates whole_md whole_entries SBlob [x01; x02; x03] /\
  designates whole_md whole_entries SGuid [x0a] /\
  designates whole_md whole_entries STables two_rows_bytes /\
  (forall e, In e whole_entries -> se_kind e <> SUserStrings) /\
  stream_bytes two_rows two_rows_bytes /\ (forall k, settled (fun t => len (rows_of two_rows t)) k) /\
  image_suits 4096 64 false 0x158 0x1a0 4 whole_entries 96 [(6, 1); (1, 1); (1, 1); number 8; number 8; (4, 4)].
Proof.
  split; [vm_compute; reflexivity|]. split; [exact whole_metadata|]. split; [exact whole_root|].
  split; [unfold one_each; cbn; repeat constructor; cbn; intuition discriminate|].
  split; [eexists; split; [right; right; right; left; reflexivity|]; split; [reflexivity|]; split; [at_here|reflexivity]|].
  split; [eexists; split; [left; reflexivity|]; split; [reflexivity|]; split; [at_here|reflexivity]|].
  split; [eexists; split; [right; right; left; reflexivity|]; split; [reflexivity|]; split; [at_here|reflexivity]|].
  split; [eexists; split; [right; left; reflexivity|]; split; [reflexivity|]; split; [at_here|reflexivity]|].
  split; [intros e [<-|[<-|[<-|[<-|[]]]]]; discriminate|].
  split; [exact two_rows_stream|]. split; [exact two_rows_settled|]. vm_compute. intuition reflexivity.
Qed.
Example C87_image_refuted_example : nth_error two_rows_bytes 6 = Some (nb (bit false 0 + bit false 1 + bit false 2)) /\
  narrow (sizes_of false false false two_rows) /\ 2 <= len (rows_of two_rows TFieldRva) /\
  read_metadata_at 4096 Debug whole tt = Ub misaligned /\
  match read_metadata Debug whole tt with Ok m _ => m_tables m = two_rows | _ => False end.
Proof.
  split; [reflexivity|]. split.
  { repeat split. - intros []; reflexivity. - intros []; reflexivity. }
  split; [vm_compute; discriminate|]. split; vm_compute; reflexivity.
Qed.

Print Assumptions C87_image_nothing_else.
Print Assumptions C87_image.
Print Assumptions C87_image_refuted.

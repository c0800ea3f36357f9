(** Properties C07, C08 and C61: locating the metadata, its streams, and image data. *)
From Coq Require Import NArith String List Bool Lia.
From Coq.Strings Require Import Byte.
From Verif Require Import Base BinaryReader BaseFacts ParseSpec ReaderFacts SpecBytes Pe SpecPe PeProofs
  SpecUtf UtfProofs Utf Tables SpecTables TablesApi TablesProofs Blob Metadata SpecMetadata MetadataProofs.
Import ListNotations.
Open Scope N_scope.

(** C08: in an image with a well-formed metadata root every heap is exactly the bytes its
    header designates, and the tables are those of the bytes the "#~" header designates. *)
Theorem C08_streams_located : forall p data pi md token rr rz es strings us blob guid tdata,
  slice_ok data -> image_metadata data pi md token rr rz -> root_at md es -> one_each es ->
  designates md es SStrings strings -> designates md es SBlob blob ->
  designates md es SGuid guid -> designates md es STables tdata ->
  (designates md es SUserStrings us \/ (us = [] /\ forall e, In e es -> se_kind e <> SUserStrings)) ->
  (forall T r, read_table_stream p (mkReader tdata 0) = Ok T r ->
   exists m, read_metadata p data tt = Ok m tt /\
     m_strings m = strings /\ m_user_strings m = us /\ m_blob m = blob /\ m_guid m = guid /\
     m_tables m = T /\ m_pe_data m = data /\ m_pe_info m = pi /\
     rs_size (ch_metadata (m_cli_header m)) = len md /\ ch_entry_point (m_cli_header m) = token /\
     ch_resources (m_cli_header m) = {| rs_rva := rr; rs_size := rz |}).
Proof.
  intros p data pi md token rr rz es strings us blob guid tdata H1 H2 H3 H4 H5 H6 H7 H8 H9 T r H10.
  destruct (read_metadata_run p data pi md token rr rz es strings us blob guid tdata T r
              H1 H2 H3 H4 H5 H6 H7 H8 H9 H10) as [mr E].
  eexists. split; [exact E|]. repeat split.
Qed.
Print Assumptions C08_streams_located.

(** Together with the table stream property: an image built from a collection of tables and
    four heaps is read back as that collection and those heaps. *)
Theorem C08_image_round_trip : forall p data pi md token rr rz es strings us blob guid tdata T,
  slice_ok data -> image_metadata data pi md token rr rz -> root_at md es -> one_each es ->
  designates md es SStrings strings -> designates md es SBlob blob ->
  designates md es SGuid guid -> designates md es STables tdata ->
  (designates md es SUserStrings us \/ (us = [] /\ forall e, In e es -> se_kind e <> SUserStrings)) ->
  stream_bytes T tdata ->
  (forall k, settled (fun t => len (rows_of T t)) k) ->
  (forall x, In x (tb_custom_attribute T) -> ref_table (ca_parent x) <> TDeclSecurity) ->
  exists m, read_metadata p data tt = Ok m tt /\
    m_strings m = strings /\ m_user_strings m = us /\ m_blob m = blob /\ m_guid m = guid /\
    m_tables m = T.
Proof.
  intros p data pi md token rr rz es strings us blob guid tdata T H1 H2 H3 H4 H5 H6 H7 H8 H9 H10 H11 H12.
  pose proof (parses_stream p T tdata H10 H11 H12) as P.
  assert (slice_ok tdata) as St.
  { destruct H2 as (_ & _ & _ & _ & _ & off & _ & _ & _ & _ & B1). apply bytes_at_bound in B1.
    destruct H8 as (e & _ & _ & B2 & _). apply bytes_at_bound in B2.
    apply (slice_ok_shorter (d := data)); [lia|auto]. }
  specialize (P [] []). rewrite app_nil_r in P. cbn [app] in P.
  destruct (C08_streams_located p data pi md token rr rz es strings us blob guid tdata H1 H2 H3 H4 H5 H6 H7 H8 H9 _ _ (P St))
    as (m & E & ? & ? & ? & ? & ? & _).
  exists m. auto 10.
Qed.
Print Assumptions C08_image_round_trip.

(** A small image: headers, one section holding the CLI header and the metadata.  The section
    starts at file offset 0x158 and address 0x1000; [ptr] is its recorded file offset. *)
Definition demo_image (ptr raw md_rva md_size token : N) (md : list byte) : list byte :=
  [x4d; x5a] ++ repeat x00 58 ++ [x40; x00; x00; x00] ++ [x50; x45; x00; x00] ++
  [x4c; x01; x01; x00] ++ repeat x00 16 ++
  [x0b; x01] ++ repeat x00 90 ++ [x0f; x00; x00; x00] ++
  repeat x00 112 ++ [x00; x10; x00; x00; x48; x00; x00; x00] ++
  repeat x2e 8 ++ le_enc 4 raw ++ le_enc 4 0x1000 ++ le_enc 4 raw ++ le_enc 4 ptr ++ repeat x00 16 ++
  repeat x00 8 ++ le_enc 4 md_rva ++ le_enc 4 md_size ++ repeat x00 4 ++ le_enc 4 token ++ repeat x00 48 ++
  md.

Definition demo_entries : list stream_entry :=
  [{| se_kind := SBlob; se_offset := 96; se_size := 3 |};
   {| se_kind := STables; se_offset := 104; se_size := 24 |};
   {| se_kind := SGuid; se_offset := 100; se_size := 2 |};
   {| se_kind := SStrings; se_offset := 88; se_size := 7 |}].

Definition demo_tables : list byte := repeat x00 24.

(** A root with a version field of five bytes, four streams in unusual order, no user strings. *)
Definition demo_md : list byte :=
  [x42; x53; x4a; x42] ++ repeat x01 8 ++ le_enc 4 5 ++ [x76; x34; x00; x00; x07] ++ [x00; x00; x04; x00] ++
  le_enc 4 96 ++ le_enc 4 3 ++ stream_text SBlob ++ [x00; xff] ++
  le_enc 4 104 ++ le_enc 4 24 ++ stream_text STables ++ [x00; x00] ++
  le_enc 4 100 ++ le_enc 4 2 ++ stream_text SGuid ++ [x00; x00; x00] ++
  le_enc 4 88 ++ le_enc 4 7 ++ stream_text SStrings ++ [x00; x00; x00] ++
  repeat x00 1 ++ [x00; x41; x00; x42; x43; x00; x05] ++ [x00] ++
  [x01; x02; x03] ++ [x00] ++ [x0a; x0b] ++ repeat x00 2 ++ demo_tables.

Ltac at_here :=
  cbv zeta;
  first [ apply u_at_iff; split; [vm_compute; discriminate|vm_compute; reflexivity]
        | apply bytes_at_iff; split; [vm_compute; discriminate|vm_compute; reflexivity] ].

Lemma demo_root : root_at demo_md demo_entries.
Proof.
  exists [x76; x34], [x00; x00; x07].
  repeat match goal with |- _ /\ _ => split end; try at_here.
  - apply utf8_valid_spec. reflexivity.
  - cbn. intuition discriminate.
  - right. eauto.
  - cbn [headers_at demo_entries seq_at se_offset se_size se_kind].
    repeat match goal with |- _ /\ _ => split end; try exact I; at_here.
Qed.

Definition demo : list byte := demo_image 0x158 (72 + len demo_md) 0x1048 (len demo_md) 0x06000001 demo_md.

Lemma demo_pe : forall pi, pe_layout demo pi ->
  nth_error (pi_data_directories pi) 14 = Some {| rs_rva := 0x1000; rs_size := 0x48 |} /\
  exists s, pi_sections pi = [s] /\ s_virtual_address s = 0x1000 /\
    s_size_of_raw_data s = 72 + len demo_md /\ s_pointer_to_raw_data s = 0x158.
Proof.
  intros pi E. apply pe_result_layout in E.
  vm_compute in E. injection E as <-. split; [reflexivity|].
  eexists. split; [reflexivity|]. repeat split.
Qed.

Lemma demo_is_pe : exists pi, pe_layout demo pi.
Proof.
  destruct (pe_result demo) as [pi|] eqn:E; [|vm_compute in E; discriminate].
  exists pi. now apply pe_result_layout.
Qed.

Lemma demo_sections pi : pe_layout demo pi -> sections_ok (pi_sections pi) /\
  forall rva off, 0x1000 <= rva -> rva < 0x1000 + 72 + len demo_md -> off = 0x158 + (rva - 0x1000) ->
    maps_to pi rva off.
Proof.
  intro Hl. destruct (demo_pe pi Hl) as (Hd & s & Es & Ev & Er & Ep). split.
  - rewrite Es. constructor; [|constructor]. rewrite Ev, Er, Ep. split; vm_compute; [reflexivity|discriminate].
  - intros rva off H1 H2 ->. exists s. rewrite Ep, Ev. split; [|reflexivity].
    exists [], []. split; [exact Es|]. split; [|constructor]. unfold section_contains. rewrite Ev, Er. lia.
Qed.

Lemma demo_cli : cli_header_at demo 0x158 0x1048 (len demo_md) 0x06000001 0 0.
Proof.
  unfold cli_header_at. cbn [seq_at]. split; [vm_compute; discriminate|].
  repeat match goal with |- _ /\ _ => split end; try exact I; at_here.
Qed.

Lemma demo_metadata : exists pi, image_metadata demo pi demo_md 0x06000001 0 0.
Proof.
  destruct demo_is_pe as [pi Hl]. exists pi.
  destruct (demo_pe pi Hl) as (Hd & _). destruct (demo_sections pi Hl) as [Hs Hm].
  split; [exact Hl|]. split; [exact Hs|].
  exists {| rs_rva := 0x1000; rs_size := 0x48 |}, 0x158, 0x1048, 0x1a0. split; [exact Hd|].
  split; [apply Hm; vm_compute; try reflexivity; discriminate|].
  split; [exact demo_cli|].
  split; [apply Hm; vm_compute; try reflexivity; discriminate|at_here].
Qed.

Example C08_streams_located_ex :
  slice_ok demo /\ (exists pi, image_metadata demo pi demo_md 0x06000001 0 0) /\
  root_at demo_md demo_entries /\ one_each demo_entries /\
  designates demo_md demo_entries SStrings [x00; x41; x00; x42; x43; x00; x05] /\
  designates demo_md demo_entries SBlob [x01; x02; x03] /\
  designates demo_md demo_entries SGuid [x0a; x0b] /\
  designates demo_md demo_entries STables demo_tables /\
  (forall e, In e demo_entries -> se_kind e <> SUserStrings) /\
  exists T r, read_table_stream Debug (mkReader demo_tables 0) = Ok T r.
Proof.
  split; [vm_compute; reflexivity|]. split; [exact demo_metadata|]. split; [exact demo_root|].
  split; [unfold one_each; cbn; repeat constructor; cbn; intuition discriminate|].
  split; [eexists; split; [right; right; right; left; reflexivity|]; split; [reflexivity|]; split; [at_here|reflexivity]|].
  split; [eexists; split; [left; reflexivity|]; split; [reflexivity|]; split; [at_here|reflexivity]|].
  split; [eexists; split; [right; right; left; reflexivity|]; split; [reflexivity|]; split; [at_here|reflexivity]|].
  split; [eexists; split; [right; left; reflexivity|]; split; [reflexivity|]; split; [at_here|reflexivity]|].
  split; [intros e [<-|[<-|[<-|[<-|[]]]]]; discriminate|].
  destruct (read_table_stream Debug (mkReader demo_tables 0)) as [T r| | | |] eqn:E; try (vm_compute in E; discriminate E).
  eauto.
Qed.

(** C08: a successful read of the root has found a well-formed root; so nothing else is ever
    taken for one, and the headers it describes are unique. *)
Theorem C08_root_sound : forall p md hs r, slice_ok md -> read_root p (mkReader md 0) = Ok hs r ->
  exists es, root_at md es /\ (forall es', root_at md es' -> es' = es) /\
    (forall k h, hd k hs = Some h ->
       exists e, In e es /\ se_kind e = k /\ st_offset h = se_offset e /\ st_size h = se_size e).
Proof.
  intros p md hs r Hs H. destruct (root_inv p md hs r Hs H) as (es & Hr & ->).
  exists es. split; [exact Hr|]. split; [intros es' H'; eapply root_at_unique; eauto|].
  intros k h Hk.
  destruct (existsb (fun x => if kind_eq_dec (se_kind x) k then true else false) es) eqn:Ex.
  - apply existsb_exists in Ex. destruct Ex as (x & Hx & Ek).
    destruct (kind_eq_dec (se_kind x) k) as [Ek'|]; [|discriminate].
    destruct (hd_fold_some k es no_streams) as (e & Hi & He & E); [eauto|].
    rewrite E in Hk. injection Hk as <-. exists e. auto.
  - rewrite hd_fold_none in Hk; [destruct k; discriminate Hk|].
    intros x Hx E.
    assert (existsb (fun x => if kind_eq_dec (se_kind x) k then true else false) es = true) as E'.
    { apply existsb_exists. exists x. split; [exact Hx|]. destruct (kind_eq_dec (se_kind x) k); [reflexivity|contradiction]. }
    congruence.
Qed.
Print Assumptions C08_root_sound.

Example C08_root_sound_ex : slice_ok demo_md /\
  exists r, read_root Debug (mkReader demo_md 0) =
    Ok {| hd_strings := Some {| st_offset := 88; st_size := 7 |}; hd_us := None;
          hd_blob := Some {| st_offset := 96; st_size := 3 |};
          hd_guid := Some {| st_offset := 100; st_size := 2 |};
          hd_tables := Some {| st_offset := 104; st_size := 24 |} |} r.
Proof. split; [vm_compute; reflexivity|]. eexists. vm_compute. reflexivity. Qed.

(** C07: the metadata root itself is read without panicking, whatever the bytes. *)
Theorem C07_root_total : forall p md, slice_ok md ->
  (exists hs r, read_root p (mkReader md 0) = Ok hs r) \/
  (exists e r, read_root p (mkReader md 0) = Err e r).
Proof.
  intros p md Hs. pose proof (root_fine p md Hs) as H.
  destruct (read_root p (mkReader md 0)); try contradiction; eauto.
Qed.
Print Assumptions C07_root_total.

Example C07_root_total_ex : slice_ok demo_md /\ slice_ok [x42; x53; x4a; x42].
Proof. split; vm_compute; reflexivity. Qed.

(** C07: no panic, provided the image is "inside": address arithmetic inside 32 bits, sections
    and metadata inside the file, mandatory streams present and inside the metadata.  Missing
    from the full claim: images that break one of those conditions (refuted below). *)
Theorem C07_metadata_total_partial : forall p data, slice_ok data ->
  (forall pi, pe_layout data pi -> image_inside data pi) ->
  (exists m, read_metadata p data tt = Ok m tt) \/ (exists e, read_metadata p data tt = Err e tt).
Proof.
  intros p data Hs Hi. pose proof (read_metadata_fine p data Hs Hi) as H.
  destruct (read_metadata p data tt) as [m []|e []| | |]; try contradiction; eauto.
Qed.
Print Assumptions C07_metadata_total_partial.

Example C07_metadata_total_partial_ex : slice_ok demo /\
  forall pi, pe_layout demo pi -> image_inside demo pi.
Proof.
  split; [vm_compute; reflexivity|].
  intros pi Hl. destruct (demo_pe pi Hl) as (Hd & s & Es & Ev & Er & Ep).
  destruct (demo_sections pi Hl) as [Hs Hm].
  split; [exact Hs|]. split.
  - rewrite Es. constructor; [|constructor]. rewrite Er, Ep. vm_compute. discriminate.
  - intros dir co mr mz tok rr rz mo Hdir Hco Hcli Hmo.
    rewrite Hd in Hdir. injection Hdir as <-. cbn [rs_rva] in Hco.
    assert (co = 0x158) as ->.
    { eapply maps_to_unique; [exact Hs|exact Hco|]. apply Hm; vm_compute; try reflexivity; discriminate. }
    destruct Hcli as (_ & Hc & _). destruct demo_cli as (_ & Dc & _). cbn [seq_at] in Hc, Dc.
    destruct Hc as (C1 & C2 & _), Dc as (D1 & D2 & _).
    rewrite (u_at_unique _ _ _ _ _ C1 D1) in Hmo. rewrite (u_at_unique _ _ _ _ _ C2 D2).
    assert (mo = 0x1a0) as ->.
    { eapply maps_to_unique; [exact Hs|exact Hmo|]. apply Hm; vm_compute; try reflexivity; discriminate. }
    split; [vm_compute; discriminate|].
    intros md l Hb Hlen Hr.
    assert (md = demo_md) as ->.
    { eapply ReaderProofs.bytes_at_unique; [exact Hb| |exact Hlen]. at_here. }
    rewrite (root_at_unique _ _ _ Hr demo_root). split.
    + intros [] Hk; try congruence;
        [exists (nth 3 demo_entries {| se_kind := SBlob; se_offset := 0; se_size := 0 |})
        |exists (nth 0 demo_entries {| se_kind := SBlob; se_offset := 0; se_size := 0 |})
        |exists (nth 2 demo_entries {| se_kind := SBlob; se_offset := 0; se_size := 0 |})
        |exists (nth 1 demo_entries {| se_kind := SBlob; se_offset := 0; se_size := 0 |})]; cbn; tauto.
    + intros e [<-|[<-|[<-|[<-|[]]]]]; vm_compute; discriminate.
Qed.

(** C07, refuted: the header of a section that lies outside the file, metadata that leaves the
    file, a missing stream and a stream outside the metadata each panic, in both profiles. *)
Definition without_guid : list byte :=
  [x42; x53; x4a; x42] ++ repeat x01 8 ++ le_enc 4 0 ++ [x00; x00; x00; x00].

Theorem C07_metadata_total_refuted : forall p,
  read_metadata p (demo_image 0x10000 0x1000 0x1048 0 0 []) tt = Panic "slice index out of range" /\
  read_metadata p (demo_image 0x158 0x1000 0x1048 0x100 0 []) tt = Panic "slice index out of range" /\
  read_metadata p (demo_image 0x158 0x1000 0x1048 20 0 without_guid) tt =
    Panic "called `Option::unwrap()` on a `None` value" /\
  read_metadata p (demo_image 0x158 0x1000 0x1048 (len demo_md - 1) 0 demo_md) tt =
    Panic "slice index out of range".
Proof. intros []; repeat split; vm_compute; reflexivity. Qed.
Print Assumptions C07_metadata_total_refuted.

(** C61: image data.  A request that leaves the file panics instead of failing: see below. *)
Theorem C61_image_data_partial : forall p m rva off bs,
  sections_ok (pi_sections (m_pe_info m)) -> maps_to (m_pe_info m) rva off ->
  bytes_at (m_pe_data m) off bs ->
  get_pe_data p m {| rs_rva := rva; rs_size := len bs |} tt = Ok bs tt.
Proof. exact get_pe_data_run. Qed.
Print Assumptions C61_image_data_partial.

(** C61: the resource stored at offset [o] of the resource area [res]: four bytes of length,
    then the content. *)
Theorem C61_resource_data_partial : forall p m off res o content,
  sections_ok (pi_sections (m_pe_info m)) ->
  maps_to (m_pe_info m) (rs_rva (ch_resources (m_cli_header m))) off ->
  bytes_at (m_pe_data m) off res -> len res = rs_size (ch_resources (m_cli_header m)) ->
  u_at res o 4 (len content) -> bytes_at res (o + 4) content ->
  get_resource_data p m o tt = Ok content tt.
Proof. exact get_resource_run. Qed.
Print Assumptions C61_resource_data_partial.

Definition sec_at (va sz ptr : N) : pe_section :=
  {| s_name := []; s_virtual_size := sz; s_virtual_address := va; s_size_of_raw_data := sz;
     s_pointer_to_raw_data := ptr; s_pointer_to_relocations := 0; s_pointer_to_line_numbers := 0;
     s_number_of_relocations := 0; s_number_of_line_numbers := 0; s_characteristics := 0 |}.
Definition two_sections : pe_info :=
  {| pi_header := dec_pe_header []; pi_optional_header := dec_pe32 [];
     pi_data_directories := []; pi_sections := [sec_at 0x2000 4 2; sec_at 0x3000 12 6] |}.
Definition demo_no_tables : tables :=
  {| tb_module := []; tb_type_ref := []; tb_type_def := []; tb_field := []; tb_method_def := []; tb_param := []; tb_interface_impl := []; tb_member_ref := []; tb_constant := []; tb_custom_attribute := []; tb_field_marshal := []; tb_decl_security := []; tb_class_layout := []; tb_field_layout := []; tb_standalone_sig := []; tb_event_map := []; tb_event := []; tb_property_map := []; tb_property := []; tb_method_semantics := []; tb_method_impl := []; tb_module_ref := []; tb_type_spec := []; tb_impl_map := []; tb_field_rva := []; tb_assembly := []; tb_assembly_processor := []; tb_assembly_os := []; tb_assembly_ref := []; tb_assembly_ref_processor := []; tb_assembly_ref_os := []; tb_file := []; tb_exported_type := []; tb_manifest_resource := []; tb_nested_class := []; tb_generic_param := []; tb_method_spec := []; tb_generic_param_constraint := [] |}.
Definition resource_image (rz : N) : metadata :=
  {| m_pe_data := [x01; x02; xa0; xa1; xa2; xa3; xff; x03; x00; x00; x00; x61; x62; x63; xee; xee; xee; xee];
     m_pe_info := two_sections; m_cli_header := cli_of 0 0 0 0x3000 rz;
     m_strings := []; m_user_strings := []; m_blob := []; m_guid := [];
     m_tables := demo_no_tables; m_entry_point := None |}.

Example C61_image_data_partial_ex :
  sections_ok (pi_sections two_sections) /\ maps_to two_sections 0x2001 3 /\
  maps_to two_sections 0x3000 6 /\
  bytes_at (m_pe_data (resource_image 12)) 3 [xa1; xa2] /\
  get_resource_data Debug (resource_image 12) 1 tt = Ok [x61; x62; x63] tt.
Proof.
  split; [repeat constructor; vm_compute; congruence|].
  split; [exists (sec_at 0x2000 4 2); split; [|reflexivity]; exists [], [sec_at 0x3000 12 6]; repeat split; try (vm_compute; congruence); constructor|].
  split; [exists (sec_at 0x3000 12 6); split; [|reflexivity]; exists [sec_at 0x2000 4 2], []; repeat split; try (vm_compute; congruence); constructor; [|constructor]; unfold section_contains; vm_compute; intros [_ H]; discriminate H|].
  split; [at_here|]. reflexivity.
Qed.

(** A resource area or a resource that leaves the file, or a resource offset outside the
    area, is a panic. *)
Theorem C61_image_data_refuted : forall p,
  get_pe_data p (resource_image 12) {| rs_rva := 0x3000; rs_size := 13 |} tt = Panic "slice index out of range" /\
  get_resource_data p (resource_image 12) 13 tt = Panic "slice index out of range" /\
  get_resource_data p (resource_image 12) 10 tt = Panic "index out of bounds" /\
  get_resource_data p (resource_image 5) 1 tt = Panic "slice index out of range".
Proof. intros []; repeat split; vm_compute; reflexivity. Qed.
Print Assumptions C61_image_data_refuted.

(** The demonstration image above holds the empty collection of tables: the remaining
    hypotheses of [C08_image_round_trip]. *)
Example C08_image_round_trip_ex :
  stream_bytes demo_no_tables demo_tables /\
  (forall k, settled (fun t => len (rows_of demo_no_tables t)) k) /\
  (forall x, In x (tb_custom_attribute demo_no_tables) -> ref_table (ca_parent x) <> TDeclSecurity).
Proof.
  split.
  - exists false, false, false, (repeat x00 6), x00, (fun _ => false), 0, [].
    split; [reflexivity|]. split; [reflexivity|]. split; [intros [] _; reflexivity|].
    split; [intros []; reflexivity|]. split; [|reflexivity].
    unfold ecma_tables.
    repeat (change (@nil byte) with (@nil byte ++ @nil byte); apply tabs_cons; [constructor|]). constructor.
  - split; [|intros x []]. intros k. left. intros tag t _. destruct t, k; reflexivity.
Qed.

(** Images of any kind, also hostile ones: the complete descriptions for C06, C07, C08 and C61. *)
From Coq Require Import NArith String List Bool Lia.
From Coq.Strings Require Import Byte.
From Verif Require Import Base BinaryReader BaseFacts ParseSpec ReaderFacts SpecBytes Pe SpecPe PeProofs
  SpecUtf UtfProofs Utf Tables SpecTables TablesApi TablesProofs TablesTotal Blob Metadata SpecMetadata ReaderProofs MetadataProofs
  SpecPlaces PlacesFacts PropsPe PropsMetadata.
Import ListNotations.
Open Scope N_scope.

(** C06: what becomes of an address, for every section table and both build profiles. *)
Theorem C06_every_table : forall S p pi rva (s : S),
  (forall off, resolve_rva p pi rva s = Ok off s <-> places p (pi_sections pi) rva off) /\
  ((exists e, resolve_rva p pi rva s = Err e s) <-> nowhere p (pi_sections pi) rva) /\
  ((exists w, resolve_rva p pi rva s = Panic w) <-> overflows p (pi_sections pi) rva) /\
  ((exists off, places p (pi_sections pi) rva off) \/ nowhere p (pi_sections pi) rva \/ overflows p (pi_sections pi) rva).
Proof.
  intros S p pi rva s. unfold resolve_rva. split; [intro off; apply places_run|]. split; [apply nowhere_run|]. split; [apply overflows_run|].
  destruct (resolve_cases p rva s (pi_sections pi)) as [(off & _ & H)|[(e & _ & H)|(w & _ & H)]]; eauto.
Qed.
Print Assumptions C06_every_table.

(** The two ways in which a release build goes wrong: an address inside a section is denied, and an address outside
    every section is accepted; and sums that carry lead to another place in the file. *)
Example C06_every_table_ex :
  nowhere Release [PropsPe.sec_at 0xfffff000 0x2000 0x200] 0xfffff100 /\ overflows Debug [PropsPe.sec_at 0xfffff000 0x2000 0x200] 0xfffff100 /\
  places Release [PropsPe.sec_at 0x1000 0x400 0xffffff00] 0x1200 0x100 /\ overflows Debug [PropsPe.sec_at 0x1000 0x400 0xffffff00] 0x1200 /\
  (forall p, places p [PropsPe.sec_at 0x2000 0x400 0x200; PropsPe.sec_at 0x4000 0x200 0x600] 0x4008 0x608) /\
  (forall p, nowhere p [PropsPe.sec_at 0x2000 0x400 0x200; PropsPe.sec_at 0x4000 0x200 0x600] 0x2400).
Proof.
  split; [apply (nowhere_run _ _ _ tt); eexists; reflexivity|]. split; [apply (overflows_run _ _ _ tt); eexists; reflexivity|].
  split; [apply (places_run _ _ _ _ tt); reflexivity|]. split; [apply (overflows_run _ _ _ tt); eexists; reflexivity|].
  split; intros []; [apply (places_run _ _ _ _ tt)..|apply (nowhere_run _ _ _ tt)|apply (nowhere_run _ _ _ tt)]; try reflexivity; eexists; reflexivity.
Qed.

(** Where the arithmetic stays inside 32 bits, these notions are those of the format. *)
Theorem C06_agreement : forall p pi rva, sections_ok (pi_sections pi) ->
  (forall off, places p (pi_sections pi) rva off <-> maps_to pi rva off) /\ ~ overflows p (pi_sections pi) rva.
Proof.
  intros p pi rva H. split.
  - intro off. rewrite <- (places_run p _ _ _ tt). rewrite <- (maps_to_run p pi rva off tt H). reflexivity.
  - intro O. destruct (proj2 (overflows_run p _ _ tt) O) as [w E].
    destruct (resolve_fine p pi rva tt H) as [[off X]|[e X]]; unfold resolve_rva in X; congruence.
Qed.
Print Assumptions C06_agreement.

(** C07: exactly these byte strings make the reader panic; every other one is read or refused. *)
Theorem C07_panics_exactly : forall p data, slice_ok data ->
  ((exists w, read_metadata p data tt = Panic w) <-> breaks p data) /\
  (~ breaks p data -> (exists m, read_metadata p data tt = Ok m tt) \/ (exists e, read_metadata p data tt = Err e tt)).
Proof.
  intros p data Hs. destruct (read_cases p data Hs) as [(m & E & _ & N)|[[(e & E) N]|[(w & E) B]]]; rewrite E; split.
  - split; [intros [w X]; discriminate X|intro X; contradiction].
  - eauto.
  - split; [intros [w X]; discriminate X|intro X; contradiction].
  - eauto.
  - split; eauto.
  - intro X. contradiction.
Qed.
Print Assumptions C07_panics_exactly.

(** The four hostile images of [C07_metadata_total_refuted] are such; the demonstration image is not. *)
Example C07_panics_exactly_ex : forall p,
  breaks p (demo_image 0x10000 0x1000 0x1048 0 0 []) /\ breaks p (demo_image 0x158 0x1000 0x1048 0x100 0 []) /\
  breaks p (demo_image 0x158 0x1000 0x1048 20 0 without_guid) /\
  breaks p (demo_image 0x158 0x1000 0x1048 (len demo_md - 1) 0 demo_md) /\ ~ breaks p demo.
Proof.
  intro p. destruct (C07_metadata_total_refuted p) as (E1 & E2 & E3 & E4).
  split; [apply C07_panics_exactly; [vm_compute; reflexivity|eauto]|]. split; [apply C07_panics_exactly; [vm_compute; reflexivity|eauto]|].
  split; [apply C07_panics_exactly; [vm_compute; reflexivity|eauto]|]. split; [apply C07_panics_exactly; [vm_compute; reflexivity|eauto]|].
  intro B. destruct (proj2 (proj1 (C07_panics_exactly p demo ltac:(vm_compute; reflexivity))) B) as [w E]. destruct p; vm_compute in E; discriminate E.
Qed.

(** C08: an image is read exactly as its headers say, also when several headers name the same stream: the last counts. *)
Theorem C08_read_exactly : forall p data m, slice_ok data ->
  (read_metadata p data tt = Ok m tt <->
   exists pi md md_rva token res_rva res_size l tdata r,
    located p data pi md md_rva token res_rva res_size /\ root_at md l /\
    stream_is md l SStrings (m_strings m) /\ stream_is md l SUserStrings (m_user_strings m) /\
    stream_is md l SBlob (m_blob m) /\ stream_is md l SGuid (m_guid m) /\
    stream_is md l STables tdata /\ read_table_stream p (mkReader tdata 0) = Ok (m_tables m) r /\
    m_pe_data m = data /\ m_pe_info m = pi /\
    m_cli_header m = {| ch_metadata := {| rs_rva := md_rva; rs_size := len md |}; ch_entry_point := token;
                        ch_resources := {| rs_rva := res_rva; rs_size := res_size |} |} /\
    m_entry_point m = entry_point_of token).
Proof.
  intros p data m Hs. split.
  - intro E. destruct (read_cases p data Hs) as [(m' & E' & H & _)|[[(e & E') _]|[(w & E') _]]]; rewrite E in E'; try discriminate E'.
    injection E' as <-. destruct H as (pi & md & mr & tok & rr & rz & l & c1 & c2 & c3 & c4 & c5 & T & r & Hl & Hr & H1 & H2 & H3 & H4 & H5 & Ht & ->).
    exists pi, md, mr, tok, rr, rz, l, c5, r. repeat (split; [assumption|]). repeat split.
  - intros (pi & md & mr & tok & rr & rz & l & c5 & r & Hl & Hr & H1 & H2 & H3 & H4 & H5 & Ht & D & P & C & N).
    apply reads_run; [exact Hs|]. exists pi, md, mr, tok, rr, rz, l, (m_strings m), (m_user_strings m), (m_blob m), (m_guid m), c5, (m_tables m), r.
    repeat (split; [assumption|]). clear - D P C N. destruct m as [d q c s u b g t n].
    cbn [m_pe_data m_pe_info m_cli_header m_entry_point m_strings m_user_strings m_blob m_guid m_tables] in *. subst. reflexivity.
Qed.
Print Assumptions C08_read_exactly.

Example C08_read_exactly_ex : slice_ok demo /\ exists m, read_metadata Debug demo tt = Ok m tt /\ m_guid m = [x0a; x0b].
Proof.
  split; [vm_compute; reflexivity|].
  destruct (read_metadata Debug demo tt) as [m []| | | |] eqn:E; try (vm_compute in E; discriminate E).
  exists m. split; [reflexivity|]. vm_compute in E. injection E as <-. reflexivity.
Qed.

(** C61: image data, exactly: for every request, the data, an error or a panic. *)
Theorem C61_image_data_exactly : forall p m rs,
  let secs := pi_sections (m_pe_info m) in
  (forall bs, get_pe_data p m rs tt = Ok bs tt <->
     exists off, places p secs (rs_rva rs) off /\ bytes_at (m_pe_data m) off bs /\ len bs = rs_size rs) /\
  ((exists e, get_pe_data p m rs tt = Err e tt) <-> nowhere p secs (rs_rva rs)) /\
  ((exists w, get_pe_data p m rs tt = Panic w) <->
     overflows p secs (rs_rva rs) \/ exists off, places p secs (rs_rva rs) off /\ len (m_pe_data m) < off + rs_size rs).
Proof.
  intros p m rs secs.
  destruct (image_data_cases p m rs) as [(off & bs & H & B & L & E)|[(H & e & E)|(H & w & E)]]; fold secs in H; rewrite E.
  - split; [|split].
    + intro bs'. split; [intro X; injection X as <-; eauto|]. intros (off' & H' & B' & L'). rewrite (places_unique _ _ _ _ _ H' H) in B'.
      f_equal. eapply bytes_at_unique; [exact B|exact B'|congruence].
    + split; [intros [e X]; discriminate X|intro X; destruct (places_nowhere _ _ _ _ H X)].
    + split; [intros [w X]; discriminate X|]. intros [X|(off' & H' & L')]; [destruct (places_overflows _ _ _ _ H X)|].
      rewrite (places_unique _ _ _ _ _ H' H) in L'. apply bytes_at_bound in B. lia.
  - split; [|split].
    + intro bs. split; [discriminate|]. intros (off & H' & _). destruct (places_nowhere _ _ _ _ H' H).
    + split; eauto.
    + split; [intros [w X]; discriminate X|]. intros [X|(off' & H' & L')]; [destruct (overflows_nowhere _ _ _ X H)|destruct (places_nowhere _ _ _ _ H' H)].
  - split; [|split].
    + intro bs. split; [discriminate|]. intros (off & H' & B & L). destruct H as [H|(off' & H & L')]; [destruct (places_overflows _ _ _ _ H' H)|].
      rewrite (places_unique _ _ _ _ _ H H') in L'. apply bytes_at_bound in B. lia.
    + split; [intros [e X]; discriminate X|]. intro X. destruct H as [H|(off' & H & _)]; [destruct (overflows_nowhere _ _ _ H X)|destruct (places_nowhere _ _ _ _ H X)].
    + split; eauto.
Qed.
Print Assumptions C61_image_data_exactly.

Lemma bind_stop_err {S A B} (m : M S A) (k : A -> M S B) s e s' : m s = Err e s' -> bind m k s = Err e s'.
Proof. intro E. unfold bind. now rewrite E. Qed.
Lemma bind_stop_panic {S A B} (m : M S A) (k : A -> M S B) s w : m s = Panic w -> bind m k s = Panic w.
Proof. intro E. unfold bind. now rewrite E. Qed.

Lemma resource_cases p m o res : get_pe_data p m (ch_resources (m_cli_header m)) tt = Ok res tt ->
  exists R, get_resource_data p m o tt = R /\
    ((exists c, R = Ok c tt /\ u_at res o 4 (len c) /\ bytes_at res (o + 4) c) \/
     ((exists w, R = Panic w) /\ (len res < o + 4 \/ exists n, u_at res o 4 n /\ len res < o + 4 + n))).
Proof.
  intro E. unfold get_resource_data. rewrite (bind_ok _ _ _ _ _ E). eexists. split; [reflexivity|].
  destruct (N.ltb_spec (len res) o) as [L|L].
  { right. split; [|left; lia]. unfold bind at 1, slice_from. destruct (N.ltb_spec (len res) o); [eexists; reflexivity|lia]. }
  destruct (split_at1 o res L) as (pre & d & -> & <-).
  rewrite (bind_ok _ _ _ _ _ (slice_from_app pre d)). destruct (N.ltb_spec (len d) 4) as [L4|L4].
  { right. split; [eexists; reflexivity|]. left. rewrite len_app. lia. }
  rewrite (bind_ok (ret tt) _ tt tt tt eq_refl). destruct (sub_list_bytes_at d 0 4 L4) as [B1 B2].
  assert (Hu : u_at (pre ++ d) (len pre) 4 (le_dec (sub_list 0 4 d))).
  { exists (sub_list 0 4 d). split; [|split; [exact B2|reflexivity]]. destruct B1 as (a & b & Ed & La).
    exists (pre ++ a), b. rewrite <- app_assoc. split; [now rewrite <- Ed|]. rewrite len_app. lia. }
  destruct (slice_range_cases d 4 (le_dec (sub_list 0 4 d))) as [[Lr (w & X)]|(c & B & Lc & X)]; cbv zeta; rewrite X.
  - right. split; [eauto|]. right. eexists. split; [exact Hu|]. rewrite len_app. lia.
  - left. exists c. split; [reflexivity|]. rewrite Lc. split; [exact Hu|]. destruct B as (a & b & Ed & La).
    exists (pre ++ a), b. rewrite <- app_assoc. split; [now rewrite <- Ed|]. rewrite len_app. lia.
Qed.

(** The resource at an offset of the resource area: four bytes of length, then the content. *)
Theorem C61_resource_data_exactly : forall p m o,
  let area := get_pe_data p m (ch_resources (m_cli_header m)) tt in
  (forall content, get_resource_data p m o tt = Ok content tt <->
     exists res, area = Ok res tt /\ u_at res o 4 (len content) /\ bytes_at res (o + 4) content) /\
  ((exists e, get_resource_data p m o tt = Err e tt) <-> exists e, area = Err e tt) /\
  ((exists w, get_resource_data p m o tt = Panic w) <->
     (exists w, area = Panic w) \/
     exists res, area = Ok res tt /\ (len res < o + 4 \/ exists n, u_at res o 4 n /\ len res < o + 4 + n)).
Proof.
  intros p m o area. subst area.
  destruct (image_data_cases p m (ch_resources (m_cli_header m))) as [(off & res & _ & _ & _ & E)|[(_ & e & E)|(_ & w & E)]].
  2:{ assert (X : get_resource_data p m o tt = Err e tt) by exact (bind_stop_err _ _ _ _ _ E). rewrite X, E. split; [|split].
      - intro c. split; [discriminate|intros (r & Y & _); discriminate Y].
      - split; eauto.
      - split; [intros [w Y]; discriminate Y|]. intros [[w Y]|(r & Y & _)]; discriminate Y. }
  2:{ assert (X : get_resource_data p m o tt = Panic w) by exact (bind_stop_panic _ _ _ _ E). rewrite X, E. split; [|split].
      - intro c. split; [discriminate|intros (r & Y & _); discriminate Y].
      - split; intros [e Y]; discriminate Y.
      - split; eauto. }
  destruct (resource_cases p m o res E) as (R & -> & G). rewrite E.
  destruct G as [(c & -> & U & B)|((w & ->) & G)].
  - split; [|split].
    + intro c'. split; [intro Y; injection Y as <-; eauto|]. intros (r & Y & U' & B'). injection Y as <-.
      f_equal. eapply bytes_at_unique; [exact B|exact B'|]. exact (u_at_unique _ _ _ _ _ U U').
    + split; intros [e Y]; discriminate Y.
    + split; [intros [w Y]; discriminate Y|]. intros [[w Y]|(r & Y & Z)]; [discriminate Y|]. injection Y as <-. apply bytes_at_bound in B.
      destruct Z as [Z|(n & U' & Z)]; [lia|]. rewrite (u_at_unique _ _ _ _ _ U' U) in Z. lia.
  - split; [|split].
    + intro c. split; [discriminate|]. intros (r & Y & U & B). injection Y as <-. apply bytes_at_bound in B.
      destruct G as [G|(n & U' & G)]; [lia|]. rewrite (u_at_unique _ _ _ _ _ U' U) in G. lia.
    + split; intros [e Y]; discriminate Y.
    + split; eauto.
Qed.
Print Assumptions C61_resource_data_exactly.

Example C61_exactly_ex : forall p,
  get_pe_data p (resource_image 12) {| rs_rva := 0x3000; rs_size := 12 |} tt = Ok [xff; x03; x00; x00; x00; x61; x62; x63; xee; xee; xee; xee] tt /\
  get_resource_data p (resource_image 12) 1 tt = Ok [x61; x62; x63] tt /\
  (exists e, get_pe_data p (resource_image 12) {| rs_rva := 0x4000; rs_size := 1 |} tt = Err e tt) /\
  (exists w, get_resource_data p (resource_image 12) 9 tt = Panic w).
Proof. intros []; repeat split; eexists; reflexivity. Qed.

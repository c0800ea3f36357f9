(** Addresses, metadata and streams of arbitrary images: lemmas for C06, C07, C08 and C61. *)
From Coq Require Import NArith String List Bool Lia.
From Coq.Strings Require Import Byte.
From Verif Require Import Base BinaryReader BaseFacts ParseSpec ReaderFacts SpecBytes Pe SpecPe PeProofs
  SpecUtf UtfProofs Utf Tables SpecTables TablesApi TablesProofs Blob Metadata SpecMetadata MetadataProofs ReaderProofs TablesTotal SpecPlaces.
Import ListNotations.
Open Scope N_scope.

(** ** The first element with a property *)

Section First.
  Context {A : Type} (P : A -> Prop).
  Lemma first_here x l : P x -> first_such P (x :: l) x.
  Proof. intro H. exists [], l. auto. Qed.
  Lemma first_skip x l y : ~ P x -> (first_such P (x :: l) y <-> first_such P l y).
  Proof.
    intro H. split.
    - intros (l1 & l2 & E & Hy & F). destruct l1 as [|z l1]; cbn [app] in E; injection E as -> ->; [contradiction|].
      exists l1, l2. inversion F; subst. auto.
    - intros (l1 & l2 & -> & Hy & F). exists (x :: l1), l2. auto.
  Qed.
  Lemma first_head x l y : P x -> first_such P (x :: l) y -> y = x.
  Proof.
    intros H (l1 & l2 & E & Hy & F). destruct l1 as [|z l1]; cbn [app] in E; injection E as -> ->; [reflexivity|].
    inversion F; subst. contradiction.
  Qed.
  Lemma first_none y : ~ first_such P [] y.
  Proof. intros (l1 & l2 & E & _). destruct l1; discriminate E. Qed.
End First.

(** ** Addresses *)

Lemma resolve_cases {S} p rva (s : S) : forall secs,
  (exists off, resolve_rva_ p rva secs s = Ok off s /\ places p secs rva off) \/
  (exists e, resolve_rva_ p rva secs s = Err e s /\ nowhere p secs rva) \/
  (exists w, resolve_rva_ p rva secs s = Panic w /\ overflows p secs rva).
Proof.
  induction secs as [|sec secs IH].
  - right. left. eexists. split; [reflexivity|constructor].
  - cbn [resolve_rva_].
    assert (Skip : ~ decides p rva sec ->
      (exists off, resolve_rva_ p rva secs s = Ok off s /\ places p (sec :: secs) rva off) \/
      (exists e, resolve_rva_ p rva secs s = Err e s /\ nowhere p (sec :: secs) rva) \/
      (exists w, resolve_rva_ p rva secs s = Panic w /\ overflows p (sec :: secs) rva)).
    { intro Hn. destruct IH as [(off & E & x & F & G)|[(e & E & F)|(w & E & Hp & x & F & G)]].
      - left. exists off. split; [exact E|]. exists x. split; [now apply first_skip|exact G].
      - right. left. exists e. split; [exact E|]. constructor; assumption.
      - right. right. exists w. split; [exact E|]. split; [exact Hp|]. exists x. split; [now apply first_skip|exact G]. }
    set (va := s_virtual_address sec) in *. set (sz := s_size_of_raw_data sec) in *.
    destruct (N.leb_spec va rva) as [L|L].
    2:{ apply Skip. unfold decides, section_contains. fold va. destruct p; lia. }
    unfold bind. destruct (N.ltb_spec (va + sz) (2 ^ 32)) as [B|B].
    + rewrite (u_add_small p 32 va sz B). cbn [ovf]. unfold ret. cbv beta iota. destruct (N.ltb_spec rva (va + sz)) as [C|C].
      * assert (D : decides p rva sec).
        { unfold decides, section_contains, end32. fold va sz. destruct p; [left; lia|]. rewrite N.mod_small by exact B. lia. }
        unfold u_add, ovf, ret. replace (rva - va + s_pointer_to_raw_data sec) with (offset_in sec rva) by (unfold offset_in; fold va; lia).
        destruct (N.ltb_spec (offset_in sec rva) (2 ^ 32)) as [K|K].
        -- left. eexists. split; [reflexivity|]. exists sec. split; [now apply first_here|]. fold va sz.
           destruct p; [auto|]. now rewrite N.mod_small.
        -- destruct p.
           ++ right. right. eexists. split; [reflexivity|]. split; [reflexivity|]. exists sec. split; [now apply first_here|auto].
           ++ left. eexists. split; [reflexivity|]. exists sec. split; [now apply first_here|reflexivity].
      * apply Skip. unfold decides, section_contains, end32. fold va sz. destruct p; [lia|]. rewrite N.mod_small by exact B. lia.
    + assert (U : u_add p 32 va sz = match p with Debug => None | Release => Some (end32 sec) end).
      { unfold u_add. destruct (N.ltb_spec (va + sz) (2 ^ 32)); [lia|reflexivity]. }
      rewrite U. destruct p.
      * right. right. eexists. split; [reflexivity|]. split; [reflexivity|]. exists sec. split; [|left; exact B].
        apply first_here. right. split; assumption.
      * cbn [ovf]. unfold ret. cbv beta iota. 
        destruct (N.ltb_spec rva (end32 sec)) as [C|C].
        -- unfold u_add, ovf, ret. replace (rva - va + s_pointer_to_raw_data sec) with (offset_in sec rva) by (unfold offset_in; fold va; lia).
           assert (D : decides Release rva sec) by (unfold decides; fold va; lia).
           left. destruct (N.ltb_spec (offset_in sec rva) (2 ^ 32)) as [K|K]; (eexists; split; [reflexivity|]; exists sec; split; [now apply first_here|]).
           ++ now rewrite N.mod_small.
           ++ reflexivity.
        -- apply Skip. unfold decides. fold va. lia.
Qed.

Lemma first_unique {A} (P : A -> Prop) l : forall x y, first_such P l x -> first_such P l y -> x = y.
Proof.
  intros x y (a1 & b1 & E1 & Hx & F1) (a2 & b2 & E2 & Hy & F2). rewrite E1 in E2. clear E1.
  revert a2 E2 F2. induction a1 as [|c a1 IH]; intros [|d a2] E2 F2; cbn [app] in E2.
  - congruence.
  - injection E2 as -> _. inversion F2; subst. contradiction.
  - injection E2 as -> _. inversion F1; subst. contradiction.
  - injection E2 as -> E2. inversion F1; subst. inversion F2; subst. eapply IH; eauto.
Qed.

Lemma first_not_none {A} (P : A -> Prop) l x : first_such P l x -> Forall (fun y => ~ P y) l -> False.
Proof. intros (l1 & l2 & -> & H & _) F. apply Forall_app in F. destruct F as [_ F]. inversion F; subst. contradiction. Qed.

Lemma places_overflows p secs rva off : places p secs rva off -> overflows p secs rva -> False.
Proof.
  intros (x & F & G) (-> & y & F' & G'). rewrite (first_unique _ _ _ _ F' F) in G'. destruct G as (? & -> & ?). destruct G'; lia.
Qed.
Lemma places_unique p secs rva a b : places p secs rva a -> places p secs rva b -> a = b.
Proof.
  intros (x & F & G) (y & F' & G'). rewrite (first_unique _ _ _ _ F' F) in G'. destruct p.
  - destruct G as (_ & -> & _), G' as (_ & -> & _). reflexivity.
  - congruence.
Qed.
Lemma places_nowhere p secs rva off : places p secs rva off -> nowhere p secs rva -> False.
Proof. intros (x & F & _) H. eapply first_not_none; eauto. Qed.
Lemma overflows_nowhere p secs rva : overflows p secs rva -> nowhere p secs rva -> False.
Proof. intros (_ & x & F & _) H. eapply first_not_none; eauto. Qed.

Lemma places_run {S} p secs rva off (s : S) : resolve_rva_ p rva secs s = Ok off s <-> places p secs rva off.
Proof.
  destruct (resolve_cases p rva s secs) as [(o & E & H)|[(e & E & H)|(w & E & H)]]; rewrite E; split; intro X; try discriminate X.
  - injection X as <-. exact H.
  - now rewrite (places_unique _ _ _ _ _ X H).
  - destruct (places_nowhere _ _ _ _ X H).
  - destruct (places_overflows _ _ _ _ X H).
Qed.
Lemma nowhere_run {S} p secs rva (s : S) : (exists e, resolve_rva_ p rva secs s = Err e s) <-> nowhere p secs rva.
Proof.
  destruct (resolve_cases p rva s secs) as [(o & E & H)|[(e & E & H)|(w & E & H)]]; rewrite E; split; intro X.
  - destruct X; discriminate.
  - destruct (places_nowhere _ _ _ _ H X).
  - exact H.
  - eauto.
  - destruct X; discriminate.
  - destruct (overflows_nowhere _ _ _ H X).
Qed.
Lemma overflows_run {S} p secs rva (s : S) : (exists w, resolve_rva_ p rva secs s = Panic w) <-> overflows p secs rva.
Proof.
  destruct (resolve_cases p rva s secs) as [(o & E & H)|[(e & E & H)|(w & E & H)]]; rewrite E; split; intro X.
  - destruct X; discriminate.
  - destruct (places_overflows _ _ _ _ H X).
  - destruct X; discriminate.
  - destruct (overflows_nowhere _ _ _ X H).
  - exact H.
  - eauto.
Qed.

(** ** Slices *)

Lemma slice_from_cases data off : (len data < off /\ exists w, slice_from data off tt = Panic w) \/
  (off <= len data /\ slice_from data off tt = Ok (skipn (N.to_nat off) data) tt).
Proof. unfold slice_from. destruct (N.ltb_spec (len data) off) as [L|L]; [left|right]; (split; [exact L|]); [eexists|]; reflexivity. Qed.

Lemma slice_range_cases data off n :
  (len data < off + n /\ exists w, slice_range data off (off + n) tt = Panic w) \/
  (exists bs, bytes_at data off bs /\ len bs = n /\ slice_range data off (off + n) tt = Ok bs tt).
Proof.
  destruct (N.ltb_spec (len data) (off + n)) as [L|L].
  - left. split; [exact L|]. unfold slice_range. destruct (N.ltb_spec (off + n) off); [eexists; reflexivity|].
    destruct (N.ltb_spec (len data) (off + n)); [eexists; reflexivity|lia].
  - right. destruct (sub_list_bytes_at data off n L) as [B1 B2]. exists (sub_list off n data). split; [exact B1|]. split; [exact B2|].
    pose proof (slice_range_at data off _ B1) as E. now rewrite B2 in E.
Qed.

(** ** Finding the metadata *)

Definition find_md (p : profile) (data : list byte) : M unit (pe_info * cli_header * list byte) :=
  pe <- on_reader (new_reader data) (parse_pe_m p) ;;
  dir <- ok_or (nth_error (pi_data_directories pe) 14) "Not .NET assembly" ;;
  off <- map_err (resolve_rva p pe (rs_rva dir)) "Invalid CLI header" ;;
  hdr <- slice_from data off ;;
  o <- on_reader (new_reader hdr) (read p CLI_HEADER_SIZE) ;;
  o <- ok_or o "Invalid CLI header" ;;
  let cli := dec_cli_header o in
  off <- map_err (resolve_rva p pe (rs_rva (ch_metadata cli))) "Invalid CLI header RVA" ;;
  md <- slice_range data off (off + rs_size (ch_metadata cli)) ;;
  ret (pe, cli, md).

Definition get_stream (p : profile) (md : list byte) (hs : stream_headers) (k : stream_kind) : M unit (list byte) :=
  match hd k hs with
  | Some h => stream_slice p md h
  | None => match k with SUserStrings => ret [] | _ => panic "called `Option::unwrap()` on a `None` value" end
  end.

Definition get_streams (p : profile) (data : list byte) (x : pe_info * cli_header * list byte) (hs : stream_headers) : M unit metadata :=
  let '(pe, cli, md) := x in
  strings <- get_stream p md hs SStrings ;;
  us <- get_stream p md hs SUserStrings ;;
  blob <- get_stream p md hs SBlob ;;
  guid <- get_stream p md hs SGuid ;;
  tdata <- get_stream p md hs STables ;;
  tables <- on_reader (new_reader tdata) (read_table_stream p) ;;
  ret (metadata_of data pe cli strings us blob guid tables).

(* X *)
Lemma read_metadata_parts p data : read_metadata p data tt =
  bind (find_md p data) (fun x => bind (on_reader (new_reader (snd x)) (read_root p)) (get_streams p data x)) tt.
Proof.
  unfold read_metadata, find_md, bind, ret.
  destruct (on_reader (new_reader data) (parse_pe_m p) tt) as [pe []| | | |]; try reflexivity.
  destruct (ok_or (nth_error (pi_data_directories pe) 14) "Not .NET assembly" tt) as [dir []| | | |]; try reflexivity.
  destruct (map_err (resolve_rva p pe (rs_rva dir)) "Invalid CLI header" tt) as [off []| | | |]; try reflexivity.
  destruct (slice_from data off tt) as [hdr []| | | |]; try reflexivity.
  destruct (on_reader (new_reader hdr) (read p CLI_HEADER_SIZE) tt) as [o []| | | |]; try reflexivity.
  destruct (ok_or o "Invalid CLI header" tt) as [o' []| | | |]; try reflexivity. cbv zeta.
  destruct (map_err (resolve_rva p pe (rs_rva (ch_metadata (dec_cli_header o')))) "Invalid CLI header RVA" tt) as [off' []| | | |]; try reflexivity.
  destruct (slice_range data off' (off' + rs_size (ch_metadata (dec_cli_header o'))) tt) as [md []| | | |]; try reflexivity. cbn [snd].
  destruct (on_reader (new_reader md) (read_root p) tt) as [hs []| | | |]; try reflexivity.
  unfold get_streams, get_stream, bind, ret, unwrap, panic. cbn [hd].
  destruct (hd_strings hs) as [h1|]; [|reflexivity]. unfold ret. destruct (stream_slice p md h1 tt) as [strings []| | | |]; try reflexivity.
  destruct (hd_us hs) as [h2|]; [destruct (stream_slice p md h2 tt) as [us []| | | |]; try reflexivity|];
    (destruct (hd_blob hs) as [h3|]; [|reflexivity]; destruct (stream_slice p md h3 tt) as [blob []| | | |]; try reflexivity;
     destruct (hd_guid hs) as [h4|]; [|reflexivity]; destruct (stream_slice p md h4 tt) as [guid []| | | |]; try reflexivity;
     destruct (hd_tables hs) as [h5|]; [|reflexivity]; destruct (stream_slice p md h5 tt) as [tdata []| | | |]; try reflexivity).
Qed.

Lemma find_ok p data pi md mr tok rr rz : slice_ok data -> located p data pi md mr tok rr rz ->
  find_md p data tt = Ok (pi, cli_of mr (len md) tok rr rz, md) tt.
Proof.
  intros Hs (Hpe & dir & co & mo & Hd & Hc & Hch & Hm & Hb).
  destruct (parse_pe_layout p data pi Hs Hpe) as [r0 Epe]. unfold find_md.
  rewrite (bind_ok _ _ tt pi tt) by (unfold on_reader; now rewrite Epe).
  rewrite (bind_ok _ _ tt dir tt) by (unfold ok_or; now rewrite Hd).
  apply (places_run p _ _ _ tt) in Hc.
  rewrite (bind_ok _ _ tt co tt) by (unfold map_err, resolve_rva; now rewrite Hc).
  destruct Hch as (L72 & Hch1 & Hch2).
  destruct (read_cli_header p data co Hs ltac:(lia)) as (hdr & Eh & x & Ex & Hx).
  rewrite (bind_ok _ _ _ _ _ Eh), (bind_ok _ _ _ _ _ Ex).
  destruct x as [d|]; [|lia]. destruct Hx as [_ Hx].
  unfold bind at 1, ok_or, ret at 1. rewrite (proj1 (Hx mr (len md) tok rr rz) (conj L72 (conj Hch1 Hch2))).
  cbn [ch_metadata cli_of rs_rva rs_size]. cbv zeta.
  apply (places_run p _ _ _ tt) in Hm.
  rewrite (bind_ok _ _ tt mo tt) by (unfold map_err, resolve_rva; now rewrite Hm).
  rewrite (bind_ok _ _ _ _ _ (slice_range_at data mo md Hb)). reflexivity.
Qed.

Lemma find_cases p data : slice_ok data ->
  (exists pi md mr tok rr rz, located p data pi md mr tok rr rz) \/
  (exists R, find_md p data tt = R /\ (((exists e, R = Err e tt) /\ ~ strays p data) \/ ((exists w, R = Panic w) /\ strays p data))).
Proof.
  intro Hs. unfold find_md. pose proof (parse_pe_result p data Hs) as Hp. unfold parse_pe in Hp.
  unfold bind at 1, on_reader at 1.
  destruct (parse_pe_m p (new_reader data)) as [pi r|e r| | |] eqn:Epe; try contradiction.
  2:{ right. eexists. split; [reflexivity|]. left. split; [eauto|]. intros (pi & dir & Hpe & _). apply pe_result_layout in Hpe. destruct Hp; congruence. }
  destruct Hp as [_ Hp]. pose proof Hp as Hpe. apply pe_result_layout in Hpe.
  assert (U : forall pi', pe_layout data pi' -> pi' = pi).
  { intros pi' H. apply pe_result_layout in H. congruence. }
  unfold bind at 1, ok_or at 1.
  destruct (nth_error (pi_data_directories pi) 14) as [dir|] eqn:Ed.
  2:{ right. eexists. split; [reflexivity|]. left. split; [eexists; reflexivity|]. intros (pi' & dir & H & Hd & _). rewrite (U _ H) in Hd. congruence. }
  unfold ret at 1. unfold bind at 1, map_err at 1, resolve_rva at 1.
  destruct (resolve_cases p (rs_rva dir) tt (pi_sections pi)) as [(co & E & Hc)|[(e & E & Hn)|(w & E & Ho)]]; rewrite E.
  2:{ right. eexists. split; [reflexivity|]. left. split; [eexists; reflexivity|]. intros (pi' & dir' & H & Hd & X). rewrite (U _ H) in Hd, X. rewrite Ed in Hd. injection Hd as <-.
      destruct X as [X|(co & X & _)]; [destruct (overflows_nowhere _ _ _ X Hn)|destruct (places_nowhere _ _ _ _ X Hn)]. }
  2:{ right. eexists. split; [reflexivity|]. right. split; [eexists; reflexivity|]. exists pi, dir. auto. }
  clear E. destruct (slice_from_cases data co) as [[L (w & E)]|[L _]].
  { right. eexists. split; [reflexivity|]. right. split; [unfold bind at 1; rewrite E; eexists; reflexivity|]. exists pi, dir. split; [exact Hpe|]. split; [exact Ed|]. right. exists co. auto. }
  destruct (read_cli_header p data co Hs L) as (hdr & Eh & x & Ex & Hx).
  rewrite (bind_ok _ _ _ _ _ Eh), (bind_ok _ _ _ _ _ Ex).
  destruct x as [d|].
  2:{ right. eexists. split; [reflexivity|]. left. split; [eexists; reflexivity|]. intros (pi' & dir' & H & Hd & X). rewrite (U _ H) in Hd, X. rewrite Ed in Hd. injection Hd as <-.
      destruct X as [X|(co' & X & Y)]; [destruct (places_overflows _ _ _ _ Hc X)|]. rewrite (places_unique _ _ _ _ _ X Hc) in Y.
      destruct Y as [Y|(? & ? & ? & ? & ? & (Y & _) & _)]; lia. }
  destruct Hx as [L72 Hx]. unfold bind at 1, ok_or, ret at 1. cbv zeta.
  destruct (dec_cli_header d) as [[mr mz] tok [rr rz]] eqn:Edec.
  pose proof (proj2 (Hx mr mz tok rr rz) eq_refl) as Hch.
  cbn [ch_metadata rs_rva rs_size]. unfold bind at 1, map_err at 1, resolve_rva at 1.
  destruct (resolve_cases p mr tt (pi_sections pi)) as [(mo & E & Hm)|[(e & E & Hn)|(w & E & Ho)]]; rewrite E.
  2:{ right. eexists. split; [reflexivity|]. left. split; [eexists; reflexivity|]. intros (pi' & dir' & H & Hd & X). rewrite (U _ H) in Hd, X. rewrite Ed in Hd. injection Hd as <-.
      destruct X as [X|(co' & X & Y)]; [destruct (places_overflows _ _ _ _ Hc X)|]. rewrite (places_unique _ _ _ _ _ X Hc) in Y.
      destruct Y as [Y|(mr' & mz' & tok' & rr' & rz' & Y & Z)]; [lia|]. apply Hx in Y. injection Y as <- <- <- <- <-.
      destruct Z as [Z|(mo & Z & _)]; [destruct (overflows_nowhere _ _ _ Z Hn)|destruct (places_nowhere _ _ _ _ Z Hn)]. }
  2:{ right. eexists. split; [reflexivity|]. right. split; [eexists; reflexivity|]. exists pi, dir. split; [exact Hpe|]. split; [exact Ed|]. right. exists co. split; [exact Hc|]. right.
      exists mr, mz, tok, rr, rz. auto. }
  clear E. destruct (slice_range_cases data mo mz) as [[Lm (w & E)]|(md & Hb & <- & _)].
  - right. eexists. split; [reflexivity|]. right. split; [unfold bind at 1; rewrite E; eexists; reflexivity|]. exists pi, dir. split; [exact Hpe|]. split; [exact Ed|]. right. exists co. split; [exact Hc|]. right.
    exists mr, mz, tok, rr, rz. split; [exact Hch|]. right. exists mo. auto.
  - left. exists pi, md, mr, tok, rr, rz. split; [exact Hpe|]. exists dir, co, mo. auto.
Qed.

Lemma located_strays p data pi md mr tok rr rz : slice_ok data -> located p data pi md mr tok rr rz -> ~ strays p data.
Proof.
  intros Hs (Hpe & dir & co & mo & Hd & Hc & Hch & Hm & Hb) (pi' & dir' & H & Hd' & X).
  apply pe_result_layout in Hpe, H. rewrite Hpe in H. injection H as <-. rewrite Hd in Hd'. injection Hd' as <-.
  destruct X as [X|(co' & X & Y)]; [exact (places_overflows _ _ _ _ Hc X)|]. rewrite (places_unique _ _ _ _ _ X Hc) in Y.
  pose proof Hch as (L72 & Q1 & _).
  destruct Y as [Y|(mr' & mz' & tok' & rr' & rz' & (_ & Q2 & _) & Z)]; [lia|].
  cbn [seq_at] in Q1, Q2. destruct Q1 as (A1 & A2 & _), Q2 as (B1 & B2 & _).
  rewrite <- (u_at_unique _ _ _ _ _ A1 B1), <- (u_at_unique _ _ _ _ _ A2 B2) in Z.
  destruct Z as [Z|(mo' & Z & W)]; [exact (places_overflows _ _ _ _ Hm Z)|]. rewrite (places_unique _ _ _ _ _ Z Hm) in W.
  apply bytes_at_bound in Hb. lia.
Qed.

Lemma located_unique p data pi md mr tok rr rz pi' md' mr' tok' rr' rz' : slice_ok data ->
  located p data pi md mr tok rr rz -> located p data pi' md' mr' tok' rr' rz' -> pi = pi' /\ md = md' /\ mr = mr' /\ tok = tok' /\ rr = rr' /\ rz = rz'.
Proof.
  intros Hs H H'. apply (find_ok p _ _ _ _ _ _ _ Hs) in H, H'. rewrite H in H'. unfold cli_of in H'. injection H'. intros. auto 10.
Qed.

(** ** Streams *)

Lemma hd_last k l : forall s, (no_header l k /\ hd k (fold_left collect1 l s) = hd k s) \/
  (exists e, last_header l k e /\ hd k (fold_left collect1 l s) = Some (entry_header e)).
Proof.
  induction l as [|x l IH]; intro s.
  - left. split; [constructor|reflexivity].
  - cbn [fold_left]. destruct (IH (collect1 s x)) as [[N E]|(e & (l1 & l2 & -> & Hk & F) & E)].
    + rewrite hd_collect1 in E. destruct (kind_eq_dec (se_kind x) k) as [Ek|Ek].
      * right. exists x. split; [|exact E]. exists [], l. auto.
      * left. split; [constructor; assumption|exact E].
    + right. exists e. split; [|exact E]. exists (x :: l1), l2. auto.
Qed.

Lemma last_unique l k : forall x y, last_header l k x -> last_header l k y -> x = y.
Proof.
  induction l as [|z l IH]; intros x y (a1 & b1 & E1 & K1 & F1) (a2 & b2 & E2 & K2 & F2); [destruct a1; discriminate E1|].
  destruct a1 as [|c a1], a2 as [|d a2]; cbn [app] in E1, E2; injection E1 as <- ->; injection E2.
  - congruence.
  - intros E <-. rewrite E in F1. apply Forall_app in F1. destruct F1 as [_ F1]. inversion F1; subst. contradiction.
  - intros E <-. rewrite <- E in F2. apply Forall_app in F2. destruct F2 as [_ F2]. inversion F2; subst. contradiction.
  - intros E <-. apply IH; [exists a1, b1|exists a2, b2]; auto.
Qed.
Lemma last_not_none l k x : last_header l k x -> no_header l k -> False.
Proof. intros (a & b & -> & K & _) F. apply Forall_app in F. destruct F as [_ F]. inversion F; subst. contradiction. Qed.

Lemma headers_bound md : forall l off, headers_at md off l -> Forall (fun e => se_offset e < 2 ^ 32 /\ se_size e < 2 ^ 32) l.
Proof.
  assert (B : forall o v, u_at md o 4 v -> v < 2 ^ 32).
  { intros o v (bs & _ & Lb & ->). pose proof (le_dec_bound bs) as X. rewrite Lb in X. exact X. }
  induction l as [|e l IH]; intros off H; [constructor|]. destruct H as (H1 & _ & H2). cbn [seq_at] in H1. destruct H1 as (A & C & _).
  constructor; [split; eapply B; eassumption|]. eapply IH; eassumption.
Qed.

Lemma stream_slice_out p md e : se_offset e < 2 ^ 32 -> se_size e < 2 ^ 32 -> len md < se_offset e + se_size e ->
  exists w, stream_slice p md (entry_header e) tt = Panic w.
Proof.
  intros H1 H2 L. rewrite pow32 in *. unfold stream_slice, bind, entry_header, u_add. cbn [st_offset st_size]. rewrite pow32.
  destruct (N.ltb_spec (se_offset e + se_size e) 4294967296) as [B|B].
  - cbn [ovf]. unfold ret, slice_range. destruct (N.ltb_spec (se_offset e + se_size e) (se_offset e)); [eexists; reflexivity|].
    destruct (N.ltb_spec (len md) (se_offset e + se_size e)); [eexists; reflexivity|lia].
  - destruct p; cbn [ovf]; [eexists; reflexivity|]. unfold ret, slice_range.
    replace ((se_offset e + se_size e) mod 4294967296) with (se_offset e + se_size e - 4294967296).
    2:{ symmetry. rewrite <- (N.mod_small (se_offset e + se_size e - 4294967296) 4294967296) by lia.
        rewrite <- (N.mod_add (se_offset e + se_size e - 4294967296) 1 4294967296) by lia. f_equal. lia. }
    destruct (N.ltb_spec (se_offset e + se_size e - 4294967296) (se_offset e)); [eexists; reflexivity|lia].
Qed.

Lemma stream_cases p md l k : len md < 2 ^ 32 -> root_at md l ->
  (exists c, get_stream p md (fold_left collect1 l no_streams) k tt = Ok c tt /\ stream_is md l k c /\ len c <= len md) \/
  ((exists w, get_stream p md (fold_left collect1 l no_streams) k tt = Panic w) /\ stream_lost md l k).
Proof.
  intros Hm (text & pad & _ & _ & _ & _ & _ & _ & _ & Hh). apply headers_bound in Hh.
  unfold get_stream. destruct (hd_last k l no_streams) as [[N E]|(e & He & E)]; rewrite E.
  - assert (X : hd k no_streams = None) by (destruct k; reflexivity). rewrite X.
    destruct k; try (right; split; [eexists; reflexivity|]; left; split; [discriminate|exact N]).
    left. exists []. split; [reflexivity|]. split; [right; auto|]. apply N.le_0_l.
  - assert (B : se_offset e < 2 ^ 32 /\ se_size e < 2 ^ 32).
    { destruct He as (a & b & -> & _). apply Forall_app in Hh. destruct Hh as [_ Hh]. now inversion Hh; subst. }
    destruct (N.leb_spec (se_offset e + se_size e) (len md)) as [L|L].
    + left. destruct (sub_list_bytes_at md (se_offset e) (se_size e) L) as [B1 B2].
      exists (sub_list (se_offset e) (se_size e) md). split; [now apply stream_slice_at|]. split; [left; eauto|lia].
    + right. split; [now apply stream_slice_out|]. right. eauto.
Qed.

Lemma stream_unique md l k a b : stream_is md l k a -> stream_is md l k b -> a = b.
Proof.
  intros [(e & He & Hb & Hl)|(_ & N & ->)] [(e' & He' & Hb' & Hl')|(_ & N' & ->)]; try reflexivity;
    try (exfalso; eapply last_not_none; eassumption).
  rewrite (last_unique _ _ _ _ He' He) in Hb', Hl'. eapply ReaderProofs.bytes_at_unique; [exact Hb|exact Hb'|congruence].
Qed.
Lemma stream_is_lost md l k c : stream_is md l k c -> stream_lost md l k -> False.
Proof.
  intros [(e & He & Hb & Hl)|(-> & N & ->)] [[K N']|(e' & He' & L)]; try (eapply last_not_none; eassumption); try congruence.
  rewrite (last_unique _ _ _ _ He' He) in L. apply bytes_at_bound in Hb. lia.
Qed.
Lemma stream_run p md l k c : len md < 2 ^ 32 -> root_at md l -> stream_is md l k c ->
  get_stream p md (fold_left collect1 l no_streams) k tt = Ok c tt.
Proof.
  intros Hm Hr H. destruct (stream_cases p md l k Hm Hr) as [(c' & E & H' & _)|(_ & H')].
  - now rewrite (stream_unique _ _ _ _ _ H H').
  - destruct (stream_is_lost _ _ _ _ H H').
Qed.

(** ** All of it *)

(** What an image that can be read is read as. *)
Definition reads_as (p : profile) (data : list byte) (m : metadata) : Prop :=
  exists pi md mr tok rr rz l strings us blob guid tdata T r,
    located p data pi md mr tok rr rz /\ root_at md l /\
    stream_is md l SStrings strings /\ stream_is md l SUserStrings us /\ stream_is md l SBlob blob /\ stream_is md l SGuid guid /\
    stream_is md l STables tdata /\ read_table_stream p (mkReader tdata 0) = Ok T r /\
    m = metadata_of data pi (cli_of mr (len md) tok rr rz) strings us blob guid T.
Lemma located_small p data pi md mr tok rr rz : slice_ok data -> located p data pi md mr tok rr rz -> len md < 2 ^ 32 /\ slice_ok md.
Proof.
  intros Hs (_ & dir & co & mo & _ & _ & (_ & H & _) & _ & Hb). split.
  - cbn [seq_at] in H. destruct H as (_ & (bs & _ & Lb & E) & _). rewrite E. pose proof (le_dec_bound bs) as B. rewrite Lb in B. exact B.
  - apply (slice_ok_shorter (d := data)); [|exact Hs]. apply bytes_at_bound in Hb. lia.
Qed.

Lemma reads_run p data m : slice_ok data -> reads_as p data m -> read_metadata p data tt = Ok m tt.
Proof.
  intros Hs (pi & md & mr & tok & rr & rz & l & c1 & c2 & c3 & c4 & c5 & T & r & Hl & Hr & H1 & H2 & H3 & H4 & H5 & Ht & ->).
  destruct (located_small _ _ _ _ _ _ _ _ Hs Hl) as [Hm Hsm].
  rewrite read_metadata_parts. rewrite (bind_ok _ _ _ _ _ (find_ok p _ _ _ _ _ _ _ Hs Hl)). cbn [snd].
  destruct (root_run p md l Hsm Hr) as [k Er].
  rewrite (bind_ok _ _ tt (fold_left collect1 l no_streams) tt) by (unfold on_reader, new_reader; now rewrite Er).
  unfold get_streams. rewrite (bind_ok _ _ _ _ _ (stream_run p md l _ _ Hm Hr H1)), (bind_ok _ _ _ _ _ (stream_run p md l _ _ Hm Hr H2)),
    (bind_ok _ _ _ _ _ (stream_run p md l _ _ Hm Hr H3)), (bind_ok _ _ _ _ _ (stream_run p md l _ _ Hm Hr H4)),
    (bind_ok _ _ _ _ _ (stream_run p md l _ _ Hm Hr H5)).
  rewrite (bind_ok _ _ tt T tt) by (unfold on_reader, new_reader; now rewrite Ht). reflexivity.
Qed.

Lemma streams_cases p data pi cli md l : len md < 2 ^ 32 -> slice_ok md -> root_at md l ->
  let run := get_streams p data (pi, cli, md) (fold_left collect1 l no_streams) tt in
  (exists c1 c2 c3 c4 c5 T r, stream_is md l SStrings c1 /\ stream_is md l SUserStrings c2 /\ stream_is md l SBlob c3 /\
     stream_is md l SGuid c4 /\ stream_is md l STables c5 /\ read_table_stream p (mkReader c5 0) = Ok T r /\
     run = Ok (metadata_of data pi cli c1 c2 c3 c4 T) tt) \/
  ((exists e, run = Err e tt) /\ forall k, exists c, stream_is md l k c) \/
  ((exists w, run = Panic w) /\ exists k, stream_lost md l k).
Proof.
  intros Hm Hsm Hr run. subst run. unfold get_streams.
  destruct (stream_cases p md l SStrings Hm Hr) as [(c1 & E1 & H1 & _)|((w & E) & H)];
    [|right; right; split; [exists w; unfold bind at 1; now rewrite E|eauto]].
  rewrite (bind_ok _ _ _ _ _ E1).
  destruct (stream_cases p md l SUserStrings Hm Hr) as [(c2 & E2 & H2 & _)|((w & E) & H)];
    [|right; right; split; [exists w; unfold bind at 1; now rewrite E|eauto]].
  rewrite (bind_ok _ _ _ _ _ E2).
  destruct (stream_cases p md l SBlob Hm Hr) as [(c3 & E3 & H3 & _)|((w & E) & H)];
    [|right; right; split; [exists w; unfold bind at 1; now rewrite E|eauto]].
  rewrite (bind_ok _ _ _ _ _ E3).
  destruct (stream_cases p md l SGuid Hm Hr) as [(c4 & E4 & H4 & _)|((w & E) & H)];
    [|right; right; split; [exists w; unfold bind at 1; now rewrite E|eauto]].
  rewrite (bind_ok _ _ _ _ _ E4).
  destruct (stream_cases p md l STables Hm Hr) as [(c5 & E5 & H5 & L5)|((w & E) & H)];
    [|right; right; split; [exists w; unfold bind at 1; now rewrite E|eauto]].
  rewrite (bind_ok _ _ _ _ _ E5).
  pose proof (calm_stream p (mkReader c5 0) (slice_ok_shorter (d' := c5) L5 Hsm) (N.le_0_l _)) as Ct.
  unfold bind, on_reader, new_reader.
  destruct (read_table_stream p (mkReader c5 0)) as [T r|e r| | |] eqn:Et; try contradiction.
  - left. exists c1, c2, c3, c4, c5, T, r. auto 10.
  - right. left. split; [eauto|]. intros []; eauto.
Qed.

Lemma read_cases p data : slice_ok data ->
  (exists m, read_metadata p data tt = Ok m tt /\ reads_as p data m /\ ~ breaks p data) \/
  ((exists e, read_metadata p data tt = Err e tt) /\ ~ breaks p data) \/
  ((exists w, read_metadata p data tt = Panic w) /\ breaks p data).
Proof.
  intro Hs. rewrite read_metadata_parts.
  destruct (find_cases p data Hs) as [(pi & md & mr & tok & rr & rz & Hl)|(R & E & [[(e & ->) Hn]|[(w & ->) H]])].
  2:{ right. left. unfold bind at 1. rewrite E. split; [eauto|]. intros [X|(pi & md & mr & tok & rr & rz & l & k & Hl & _)]; [contradiction|].
      rewrite (find_ok p _ _ _ _ _ _ _ Hs Hl) in E. discriminate E. }
  2:{ right. right. unfold bind at 1. rewrite E. split; [eauto|]. left. exact H. }
  rewrite (bind_ok _ _ _ _ _ (find_ok p _ _ _ _ _ _ _ Hs Hl)). cbn [snd].
  destruct (located_small _ _ _ _ _ _ _ _ Hs Hl) as [Hm Hsm].
  pose proof (root_fine p md Hsm) as Hrf.
  assert (NB : (forall l k, root_at md l -> ~ stream_lost md l k) -> ~ breaks p data).
  { intros X [Y|(pi' & md' & mr' & tok' & rr' & rz' & l & k & Hl' & Hr & Hk)]; [exact (located_strays _ _ _ _ _ _ _ _ Hs Hl Y)|].
    destruct (located_unique _ _ _ _ _ _ _ _ _ _ _ _ _ _ Hs Hl Hl') as (_ & <- & _). exact (X l k Hr Hk). }
  destruct (read_root p (mkReader md 0)) as [hs r1|e r1| | |] eqn:Er; try contradiction.
  2:{ right. left. split; [exists e; unfold bind at 1, on_reader, new_reader; now rewrite Er|].
      apply NB. intros l k Hr. destruct (root_run p md l Hsm Hr) as [j X]. rewrite Er in X. discriminate X. }
  destruct (root_inv p md hs r1 Hsm Er) as (l & Hr & ->).
  rewrite (bind_ok _ _ tt (fold_left collect1 l no_streams) tt) by (unfold on_reader, new_reader; now rewrite Er).
  destruct (streams_cases p data pi (cli_of mr (len md) tok rr rz) md l Hm Hsm Hr)
    as [(c1 & c2 & c3 & c4 & c5 & T & r & H1 & H2 & H3 & H4 & H5 & Ht & E)|[[(e & E) H]|[(w & E) (k & H)]]]; rewrite E.
  - left. eexists. split; [reflexivity|]. split.
    + exists pi, md, mr, tok, rr, rz, l, c1, c2, c3, c4, c5, T, r. auto 20.
    + apply NB. intros l' k Hr' X. rewrite (root_at_unique _ _ _ Hr' Hr) in X. destruct k; (eapply stream_is_lost; [|exact X]); eassumption.
  - right. left. split; [eauto|]. apply NB. intros l' k Hr' X. rewrite (root_at_unique _ _ _ Hr' Hr) in X.
    destruct (H k) as [c Hc]. exact (stream_is_lost _ _ _ _ Hc X).
  - right. right. split; [eauto|]. right. exists pi, md, mr, tok, rr, rz, l, k. auto.
Qed.

(** ** Data of an image *)

Lemma image_data_cases p m rs :
  (exists off bs, places p (pi_sections (m_pe_info m)) (rs_rva rs) off /\ bytes_at (m_pe_data m) off bs /\ len bs = rs_size rs /\
     get_pe_data p m rs tt = Ok bs tt) \/
  (nowhere p (pi_sections (m_pe_info m)) (rs_rva rs) /\ exists e, get_pe_data p m rs tt = Err e tt) \/
  ((overflows p (pi_sections (m_pe_info m)) (rs_rva rs) \/
    exists off, places p (pi_sections (m_pe_info m)) (rs_rva rs) off /\ len (m_pe_data m) < off + rs_size rs) /\
   exists w, get_pe_data p m rs tt = Panic w).
Proof.
  unfold get_pe_data, bind, resolve_rva.
  destruct (resolve_cases p (rs_rva rs) tt (pi_sections (m_pe_info m))) as [(off & E & H)|[(e & E & H)|(w & E & H)]]; rewrite E.
  - destruct (slice_range_cases (m_pe_data m) off (rs_size rs)) as [[L (w & X)]|(bs & B & L & X)]; rewrite X.
    + right. right. split; eauto.
    + left. exists off, bs. auto.
  - right. left. eauto.
  - right. right. eauto.
Qed.

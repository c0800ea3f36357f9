(** Proofs about the PE parser. *)
From Coq Require Import NArith ZArith String List Bool Lia ZifyBool ZifyNat ZifyN.
From Coq.Strings Require Import Byte.
From Verif Require Import Base Utf BinaryReader ParseSpec BaseFacts ReaderFacts SpecBytes Pe SpecPe.
Import ListNotations.
Open Scope N_scope.

Lemma bytes_at_iff data off bs :
  bytes_at data off bs <-> off + len bs <= len data /\ sub_list off (len bs) data = bs.
Proof.
  split.
  - intros (pre & post & -> & <-). split; [slen; lia|apply sub_list_app].
  - intros [H E]. destruct (split_at off (len bs) data H) as (pre & b & post & -> & H1 & H2).
    exists pre, post. split; auto. f_equal. f_equal. rewrite <- H1, <- H2, sub_list_app in E. auto.
Qed.

Lemma u_at_iff data off w v :
  u_at data off w v <-> off + w <= len data /\ v = le_dec (sub_list off w data).
Proof.
  split.
  - intros (bs & H & <- & ->). apply bytes_at_iff in H as [H1 H2]. split; auto. now rewrite H2.
  - intros [H ->]. exists (sub_list off w data).
    assert (len (sub_list off w data) = w) as L by (now apply len_sub_list).
    repeat split; auto. apply bytes_at_iff. rewrite L. auto.
Qed.

Lemma firstn_firstn_min {A} a b (l : list A) : (a <= b)%nat -> firstn a (firstn b l) = firstn a l.
Proof. intro. rewrite firstn_firstn. now rewrite Nat.min_l. Qed.

Lemma skipn_firstn_sub {A} a n (l : list A) :
  skipn a (firstn n l) = firstn (n - a) (skipn a l).
Proof. revert n l; induction a; intros [|n] [|x l]; simpl; auto; now rewrite ?firstn_nil. Qed.

Lemma skipn_skipn_add {A} a b (l : list A) : skipn a (skipn b l) = skipn (b + a) l.
Proof. revert l; induction b; intro l; simpl; auto. destruct l; simpl; auto. now rewrite skipn_nil. Qed.

Lemma sub_sub {A} off w base n (l : list A) :
  off + w <= n -> sub_list off w (sub_list base n l) = sub_list (base + off) w l.
Proof.
  intro H. unfold sub_list.
  rewrite skipn_firstn_sub, firstn_firstn_min by lia.
  rewrite skipn_skipn_add. f_equal. f_equal. lia.
Qed.

Lemma fld_sub data base n off w : off + w <= n ->
  fld (sub_list base n data) off w = le_dec (sub_list (base + off) w data).
Proof. intro. unfold fld. now rewrite sub_sub. Qed.

(** Consecutive fields, decoded. *)
Fixpoint dec_at (data : list byte) (off : N) (ws : list N) : list N :=
  match ws with
  | [] => []
  | w :: ws' => le_dec (sub_list off w data) :: dec_at data (off + w) ws'
  end.
Definition total_w (ws : list N) : N := fold_right N.add 0 ws.

Lemma seq_at_iff data l off : off <= len data ->
  (seq_at data off l <->
   off + total_w (map fst l) <= len data /\ map snd l = dec_at data off (map fst l)).
Proof.
  revert off; induction l as [|[w v] l IH]; intros off Hoff.
  - simpl. split; auto. intros _. split; auto. lia.
  - cbn [seq_at map fst snd total_w fold_right dec_at]. fold (total_w (map fst l)).
    rewrite u_at_iff. split.
    + intros [[H1 ->] H2]. apply IH in H2 as [H2 E]; [|lia]. split; [lia|]. now rewrite E.
    + intros [H1 E]. injection E as -> E. split; [split; auto; lia|]. apply IH; auto; [lia|].
      split; auto; lia.
Qed.

Lemma dec_at_sub data base n ws k : k + total_w ws <= n ->
  dec_at (sub_list base n data) k ws = dec_at data (base + k) ws.
Proof.
  revert k; induction ws as [|w ws IH]; intros k H; auto.
  cbn [total_w fold_right] in H. fold (total_w ws) in H.
  cbn [dec_at]. rewrite sub_sub by lia. rewrite IH by lia. f_equal. f_equal. lia.
Qed.

Lemma seq_at_sub data l off n : total_w (map fst l) = n ->
  (seq_at data off l /\ off <= len data <->
   off + n <= len data /\ map snd l = dec_at (sub_list off n data) 0 (map fst l)).
Proof.
  intro Hn. rewrite dec_at_sub by lia. rewrite N.add_0_r. split.
  - intros [H1 H2]. apply seq_at_iff in H1; auto. now rewrite Hn in H1.
  - intros H. assert (off <= len data) by lia. split; auto. apply seq_at_iff; auto. now rewrite Hn.
Qed.

Lemma seq_at_le data off w v l : seq_at data off ((w, v) :: l) -> off <= len data.
Proof. intros [H _]. apply u_at_iff in H. lia. Qed.

Lemma seq_at_elim data l off n : seq_at data off l -> off <= len data ->
  total_w (map fst l) = n ->
  off + n <= len data /\ map snd l = dec_at (sub_list off n data) 0 (map fst l).
Proof. intros H L E. apply seq_at_sub; auto. Qed.
Lemma seq_at_intro data l off n : total_w (map fst l) = n ->
  off + n <= len data -> map snd l = dec_at (sub_list off n data) 0 (map fst l) ->
  seq_at data off l.
Proof. intros H L E. now apply (seq_at_sub data l off n H). Qed.

Lemma cons_inj {A} (x y : A) l l' : x :: l = y :: l' -> x = y /\ l = l'.
Proof. intro H. injection H; auto. Qed.
Ltac inj_list E :=
  repeat (apply cons_inj in E; let E1 := fresh "E" in destruct E as [E1 E]).

(** One record of fields at a known place. *)
Lemma coff_header_iff data off h :
  coff_header_at data off h <->
  off + 20 <= len data /\ h = dec_pe_header (sub_list off 20 data).
Proof.
  unfold coff_header_at. split.
  - intro H. pose proof (seq_at_le _ _ _ _ _ H) as L.
    destruct (seq_at_elim data _ off 20 H L eq_refl) as [H1 E]. split; auto.
    destruct h; cbn -[N.add sub_list le_dec] in E. inj_list E; subst. reflexivity.
  - intros [H ->]. apply (seq_at_intro data _ off 20); auto.
Qed.

Lemma optional_header_iff data off o :
  optional_header_at data off o <->
  exists m, (m = 0x10b \/ m = 0x20b) /\ off + 2 <= len data /\
    m = le_dec (sub_list off 2 data) /\
    if m =? 0x10b then off + 96 <= len data /\ o = dec_pe32 (sub_list off 96 data)
    else off + 112 <= len data /\ o = dec_pe64 (sub_list off 112 data).
Proof.
  unfold optional_header_at. split.
  - intros (Hm & Hd & H).
    assert (off + 2 <= len data /\ o_magic o = le_dec (sub_list off 2 data)) as [L2 EM].
    { destruct (o_pe64 o); destruct H as [H _]; now apply u_at_iff in H. }
    exists (o_magic o). split; [destruct (o_pe64 o); auto|]. split; auto. split; auto.
    destruct (o_pe64 o) eqn:E64; rewrite Hm.
    + change (0x20b =? 0x10b) with false. cbv iota.
      pose proof (seq_at_le _ _ _ _ _ H) as L.
      destruct (seq_at_elim data _ off 112 H L eq_refl) as [H1 E]. split; auto.
      specialize (Hd eq_refl).
      destruct o; cbn -[N.add sub_list le_dec] in E, Hd, E64. subst. inj_list E; subst. reflexivity.
    + change (0x10b =? 0x10b) with true. cbv iota.
      pose proof (seq_at_le _ _ _ _ _ H) as L.
      destruct (seq_at_elim data _ off 96 H L eq_refl) as [H1 E]. split; auto.
      destruct o; cbn -[N.add sub_list le_dec] in E, E64. subst. inj_list E; subst. reflexivity.
  - intros (m & [-> | ->] & Hl & Hm & H).
    + change (0x10b =? 0x10b) with true in H. cbv iota in H. destruct H as [H ->].
      cbn [o_pe64 dec_pe32]. split; [|split; [discriminate|]].
      * cbn [o_magic dec_pe32]. rewrite fld_sub by lia. rewrite N.add_0_r. auto.
      * apply (seq_at_intro data _ off 96); auto.
    + change (0x20b =? 0x10b) with false in H. cbv iota in H. destruct H as [H ->].
      cbn [o_pe64 dec_pe64]. split; [|split; [auto|]].
      * cbn [o_magic dec_pe64]. rewrite fld_sub by lia. rewrite N.add_0_r. auto.
      * apply (seq_at_intro data _ off 112); auto.
Qed.

Lemma data_directory_iff data off d :
  data_directory_at data off d <->
  off + 8 <= len data /\ d = dec_rva_and_size (sub_list off 8 data).
Proof.
  unfold data_directory_at. split.
  - intro H. pose proof (seq_at_le _ _ _ _ _ H) as L.
    destruct (seq_at_elim data _ off 8 H L eq_refl) as [H1 E]. split; auto.
    destruct d; cbn -[N.add sub_list le_dec] in E. inj_list E; subst. reflexivity.
  - intros [H ->]. apply (seq_at_intro data _ off 8); auto.
Qed.

Lemma section_header_iff data off s :
  section_header_at data off s <->
  off + 40 <= len data /\ s = dec_pe_section (sub_list off 40 data).
Proof.
  unfold section_header_at. rewrite bytes_at_iff. split.
  - intros ([H1 H2] & H3 & H). rewrite H3 in *.
    pose proof (seq_at_le _ _ _ _ _ H) as L.
    destruct (seq_at_elim data _ (off + 8) 32 H L eq_refl) as [H4 E]. split; [lia|].
    rewrite dec_at_sub in E by (vm_compute; discriminate).
    replace (off + 8 + 0) with (off + 8) in E by lia.
    rewrite <- (dec_at_sub data off 40) in E by (vm_compute; discriminate).
    destruct s; cbn -[N.add sub_list le_dec] in E, H2. inj_list E; subst.
    unfold dec_pe_section. f_equal. rewrite sub_sub by lia. now rewrite N.add_0_r.
  - intros [H ->].
    cbn [s_name dec_pe_section]. rewrite sub_sub by lia. rewrite N.add_0_r.
    rewrite len_sub_list by lia. split; [split; [lia|auto]|]. split; auto.
    apply (seq_at_intro data _ (off + 8) 32); [reflexivity|lia|].
    rewrite dec_at_sub by (vm_compute; discriminate).
    replace (off + 8 + 0) with (off + 8) by lia.
    rewrite <- (dec_at_sub data off 40) by (vm_compute; discriminate). reflexivity.
Qed.

Lemma skip_sub {A} a b off (l : list A) :
  skipn (N.to_nat a) (sub_list off (a + b) l) = sub_list (off + a) b l.
Proof.
  unfold sub_list. rewrite skipn_firstn_sub, skipn_skipn_add.
  replace (N.to_nat (a + b) - N.to_nat a)%nat with (N.to_nat b) by lia.
  now replace (N.to_nat off + N.to_nat a)%nat with (N.to_nat (off + a)) by lia.
Qed.
Lemma first_sub {A} a b off (l : list A) :
  firstn (N.to_nat a) (sub_list off (a + b) l) = sub_list off a l.
Proof. unfold sub_list. now rewrite firstn_firstn_min by lia. Qed.

Lemma items_chunks {A} (P : N -> A -> Prop) (dec : list byte -> A) sz data off cnt (l : list A) :
  (forall o x, P o x <-> o + sz <= len data /\ x = dec (sub_list o sz data)) ->
  off <= len data ->
  (len l = cnt /\ items_at P sz off l <->
   off + cnt * sz <= len data /\
   l = map dec (chunks (N.to_nat sz) (N.to_nat cnt) (sub_list off (cnt * sz) data))).
Proof.
  intros HP. revert off cnt. induction l as [|x l IH]; intros off cnt Hoff.
  - cbn [items_at]. split.
    + intros [<- _]. simpl. split; [lia|auto].
    + intros [H E]. split; auto.
      destruct (N.eq_dec cnt 0) as [->|Hc]; auto.
      replace (N.to_nat cnt) with (S (N.to_nat (cnt - 1))) in E by lia. discriminate.
  - cbn [items_at]. rewrite HP. split.
    + intros (<- & (H1 & ->) & H2).
      rewrite len_cons in *.
      destruct (IH (off + sz) (len l)) as [I _]; [lia|].
      destruct I as [H3 H4]; [auto|]. split; [lia|].
      replace (N.to_nat (1 + len l)) with (S (N.to_nat (len l))) by lia. cbn [chunks map].
      replace ((1 + len l) * sz) with (sz + len l * sz) by lia.
      rewrite first_sub, skip_sub. now rewrite <- H4.
    + intros [H E].
      destruct (N.eq_dec cnt 0) as [->|Hc]; [discriminate|].
      assert (exists c, cnt = 1 + c) as [c ->] by (exists (cnt - 1); lia). clear Hc.
      replace (N.to_nat (1 + c)) with (S (N.to_nat c)) in E by lia. cbn [chunks map] in E.
      replace ((1 + c) * sz) with (sz + c * sz) in * by lia.
      rewrite first_sub, skip_sub in E.
      injection E as E1 E2.
      destruct (IH (off + sz) c) as [_ I]; [lia|].
      destruct I as [H3 H4].
      * split; [lia|]. exact E2.
      * rewrite len_cons. split; [lia|]. split; auto. split; [lia|]. exact E1.
Qed.

Lemma peek_array_ok p sz cnt r : slice_ok (rdata r) -> rpos r + cnt * sz < len (rdata r) ->
  peek_array p sz cnt r = Ok (Some (sub_list (rpos r) (cnt * sz) (rdata r))) r.
Proof.
  intros H1 H2. unfold slice_ok in H1. rewrite pow63 in H1. unfold peek_array.
  rewrite u_mul_small by (rewrite pow64; lia).
  rewrite u_add_small by (rewrite pow64; lia).
  destruct (N.leb_spec (len (rdata r)) (rpos r + cnt * sz)); [lia|].
  destruct (N.ltb_spec (len (rdata r)) (rpos r)); [lia|].
  destruct (N.ltb_spec (len (rdata r)) (rpos r + cnt * sz)); [lia|reflexivity].
Qed.
Lemma peek_array_none p sz cnt r :
  len (rdata r) <= rpos r + cnt * sz -> rpos r + cnt * sz < 2 ^ 64 ->
  peek_array p sz cnt r = Ok None r.
Proof.
  intros H1 H2. unfold peek_array.
  rewrite u_mul_small by lia. rewrite u_add_small by lia.
  destruct (N.leb_spec (len (rdata r)) (rpos r + cnt * sz)); [reflexivity|lia].
Qed.

Lemma le_dec_sub_bound off w (d : list byte) : off + w <= len d -> le_dec (sub_list off w d) < 256 ^ w.
Proof. intro H. pose proof (le_dec_bound (sub_list off w d)). rewrite len_sub_list in H0; auto. Qed.

Lemma fld_bound d off w : off + w <= len d -> fld d off w < 256 ^ w.
Proof. apply le_dec_sub_bound. Qed.

(** What the parser computes, branch by branch, on a legal slice. *)
Definition pe_result (data : list byte) : option pe_info :=
  let n := len data in
  if n <=? 2 then None else
  if negb (bytes_eqb (sub_list 0 2 data) MZ) then None else
  if n <? 0x3c + 4 then None else
  let l := le_dec (sub_list 0x3c 4 data) in
  if n <? l + 4 then None else
  if negb (bytes_eqb (sub_list l 4 data) PE00) then None else
  if n <? l + 24 then None else
  let h := dec_pe_header (sub_list (l + 4) 20 data) in
  if n <? l + 26 then None else
  let m := le_dec (sub_list (l + 24) 2 data) in
  let rest (o : pe_optional_header) (e : N) :=
    let nd := o_number_of_data_directories o in
    let ns := h_number_of_sections h in
    if n <? e + nd * 8 then None else
    if n <? e + nd * 8 + ns * 40 then None else
    Some {| pi_header := h; pi_optional_header := o;
            pi_data_directories := map dec_rva_and_size
              (chunks (N.to_nat 8) (N.to_nat nd) (sub_list e (nd * 8) data));
            pi_sections := map dec_pe_section
              (chunks (N.to_nat 40) (N.to_nat ns) (sub_list (e + nd * 8) (ns * 40) data)) |} in
  if m =? 0x10b then
    if n <? l + 24 + 96 then None else rest (dec_pe32 (sub_list (l + 24) 96 data)) (l + 24 + 96)
  else if m =? 0x20b then
    if n <? l + 24 + 112 then None else rest (dec_pe64 (sub_list (l + 24) 112 data)) (l + 24 + 112)
  else None.

Ltac dec_bool :=
  match goal with
  | |- context [N.ltb ?a ?b] => destruct (N.ltb_spec a b)
  | |- context [N.leb ?a ?b] => destruct (N.leb_spec a b)
  end.

Lemma bind_assoc_run {S A B} (m : M S A) (k : A -> M S B) s :
  bind m k s = match m s with
               | Ok a s' => k a s' | Err e s' => Err e s' | Panic w => Panic w
               | Ub w => Ub w | NoFuel => NoFuel end.
Proof. reflexivity. Qed.

Lemma parse_pe_result p data : slice_ok data ->
  match parse_pe p data with
  | Ok pi r => rdata r = data /\ pe_result data = Some pi
  | Err _ r => rdata r = data /\ pe_result data = None
  | _ => False
  end.
Proof.
  intro Hs. pose proof Hs as Hs'. unfold slice_ok in Hs'. rewrite pow63 in Hs'.
  unfold parse_pe, parse_pe_m, new_reader, pe_result.
  rewrite bind_assoc_run.
  destruct (N.leb_spec (len data) 2) as [L|L].
  { rewrite peek_array_none by (simpl; rewrite ?pow64; lia). simpl. auto. }
  rewrite peek_array_ok by (simpl; auto; lia).
  cbn [rpos rdata]. change (2 * 1) with 2.
  cbn [opt_bytes_eqb].
  destruct (bytes_eqb (sub_list 0 2 data) MZ); cbn [negb]; [|simpl; auto].
  rewrite bind_assoc_run. unfold ret at 1.
  rewrite bind_assoc_run. unfold goto at 1. cbn [rdata].
  rewrite bind_assoc_run.
  destruct (N.ltb_spec (len data) (60 + 4)) as [L1|L1].
  { rewrite peek_none by (simpl; rewrite ?pow64; lia). simpl. auto. }
  rewrite peek_ok by (simpl; auto; lia). cbn [rpos rdata].
  pose proof (le_dec_sub_bound 60 4 data L1) as B. change (256 ^ 4) with 4294967296 in B.
  set (l := le_dec (sub_list 60 4 data)) in *.
  rewrite bind_assoc_run. unfold goto at 1. cbn [rdata].
  rewrite bind_assoc_run.
  destruct (N.ltb_spec (len data) (l + 4)) as [L2|L2].
  { rewrite read_array_none by (simpl; rewrite ?pow64; lia). simpl. auto. }
  rewrite read_array_ok by (simpl; auto; lia). cbn [rpos rdata]. change (4 * 1) with 4.
  cbn [opt_bytes_eqb].
  destruct (bytes_eqb (sub_list l 4 data) PE00); cbn [negb]; [|simpl; auto].
  rewrite bind_assoc_run. unfold ret at 1.
  rewrite bind_assoc_run. unfold PE_HEADER_SIZE.
  destruct (N.ltb_spec (len data) (l + 24)) as [L3|L3].
  { rewrite read_none by (simpl; rewrite ?pow64; lia). simpl. auto. }
  rewrite read_ok by (simpl; auto; lia). cbn [rpos rdata].
  rewrite bind_assoc_run. cbn [ok_or]. unfold ret at 1.
  set (h := dec_pe_header (sub_list (l + 4) 20 data)).
  cbv zeta.
  rewrite bind_assoc_run.
  replace (l + 4 + 20) with (l + 24) by lia.
  destruct (N.ltb_spec (len data) (l + 26)) as [L4|L4].
  { rewrite peek_none by (simpl; rewrite ?pow64; lia). simpl. auto. }
  rewrite peek_ok by (simpl; auto; lia). cbn [rpos rdata].
  rewrite bind_assoc_run. cbn [ok_or]. unfold ret at 1.
  assert (h_number_of_sections h < 65536) as Hns.
  { unfold h, dec_pe_header; cbn [h_number_of_sections].
    apply fld_bound. rewrite len_sub_list by lia. lia. }
  assert (forall o e r, rdata r = data -> rpos r = e -> e <= len data ->
    o_number_of_data_directories o < 4294967296 ->
    match (dirs <- read_array p RVA_AND_SIZE_SIZE (o_number_of_data_directories o) ;;
           dirs <- ok_or dirs "Invalid PE file" ;;
           secs <- read_array p PE_SECTION_SIZE (h_number_of_sections h) ;;
           secs <- ok_or secs "Invalid PE file" ;;
           ret {| pi_header := h; pi_optional_header := o;
             pi_data_directories :=
               map dec_rva_and_size
                 (chunks (N.to_nat RVA_AND_SIZE_SIZE)
                         (N.to_nat (o_number_of_data_directories o)) dirs);
             pi_sections :=
               map dec_pe_section
                 (chunks (N.to_nat PE_SECTION_SIZE)
                         (N.to_nat (h_number_of_sections h)) secs) |}) r with
    | Ok pi r => rdata r = data /\
       (let nd := o_number_of_data_directories o in
        let ns := h_number_of_sections h in
        if len data <? e + nd * 8 then None else
        if len data <? e + nd * 8 + ns * 40 then None else
        Some {| pi_header := h; pi_optional_header := o;
            pi_data_directories := map dec_rva_and_size
              (chunks (N.to_nat 8) (N.to_nat nd) (sub_list e (nd * 8) data));
            pi_sections := map dec_pe_section
              (chunks (N.to_nat 40) (N.to_nat ns) (sub_list (e + nd * 8) (ns * 40) data)) |})
       = Some pi
    | Err _ r => rdata r = data /\
        (let nd := o_number_of_data_directories o in
        let ns := h_number_of_sections h in
        if len data <? e + nd * 8 then None else
        if len data <? e + nd * 8 + ns * 40 then None else
        Some {| pi_header := h; pi_optional_header := o;
            pi_data_directories := map dec_rva_and_size
              (chunks (N.to_nat 8) (N.to_nat nd) (sub_list e (nd * 8) data));
            pi_sections := map dec_pe_section
              (chunks (N.to_nat 40) (N.to_nat ns) (sub_list (e + nd * 8) (ns * 40) data)) |})
         = None
    | _ => False
    end) as Rest.
  { intros o e r Hr He Hle Hnd. cbv zeta. unfold RVA_AND_SIZE_SIZE, PE_SECTION_SIZE.
    set (nd := o_number_of_data_directories o) in *. set (ns := h_number_of_sections h) in *.
    rewrite bind_assoc_run.
    destruct (N.ltb_spec (len data) (e + nd * 8)) as [L5|L5].
    { rewrite read_array_none by (rewrite ?Hr, ?He, ?pow64; lia). simpl. auto. }
    rewrite read_array_ok by (rewrite ?Hr, ?He; auto). rewrite Hr, He.
    rewrite bind_assoc_run. cbn [ok_or]. unfold ret at 1.
    rewrite bind_assoc_run.
    destruct (N.ltb_spec (len data) (e + nd * 8 + ns * 40)) as [L6|L6].
    { rewrite read_array_none by (cbn [rdata rpos]; rewrite ?pow64; lia). simpl. auto. }
    rewrite read_array_ok by (cbn [rdata rpos]; auto). cbn [rdata rpos].
    unfold ok_or, bind, ret. simpl. auto. }
  rewrite bind_assoc_run.
  set (m := le_dec (sub_list (l + 24) 2 data)).
  destruct (m =? 267).
  - rewrite bind_assoc_run. unfold PE32_SIZE.
    destruct (N.ltb_spec (len data) (l + 24 + 96)) as [L5|L5].
    { rewrite read_none by (simpl; rewrite ?pow64; lia). simpl. auto. }
    rewrite read_ok by (simpl; auto; lia). cbn [rpos rdata].
    rewrite bind_assoc_run. cbn [ok_or]. unfold ret at 1. unfold ret at 1.
    apply Rest; auto.
    unfold dec_pe32; cbn [o_number_of_data_directories].
    apply (fld_bound _ 92 4). rewrite len_sub_list; lia.
  - destruct (m =? 523); [|simpl; auto].
    rewrite bind_assoc_run. unfold PE64_SIZE.
    destruct (N.ltb_spec (len data) (l + 24 + 112)) as [L5|L5].
    { rewrite read_none by (simpl; rewrite ?pow64; lia). simpl. auto. }
    rewrite read_ok by (simpl; auto; lia). cbn [rpos rdata].
    rewrite bind_assoc_run. cbn [ok_or]. unfold ret at 1. unfold ret at 1.
    apply Rest; auto.
    unfold dec_pe64; cbn [o_number_of_data_directories].
    apply (fld_bound _ 108 4). rewrite len_sub_list; lia.
Qed.

Lemma pe_result_layout data pi : pe_result data = Some pi <-> pe_layout data pi.
Proof.
  unfold pe_result, pe_layout. split.
  - intro H.
    destruct (N.leb_spec (len data) 2) as [L|L]; [discriminate|].
    destruct (bytes_eqb (sub_list 0 2 data) MZ) eqn:E1; [|discriminate]. cbn [negb] in H.
    destruct (N.ltb_spec (len data) (60 + 4)) as [L1|L1]; [discriminate|].
    set (l := le_dec (sub_list 60 4 data)) in *. cbv zeta in H.
    destruct (N.ltb_spec (len data) (l + 4)) as [L2|L2]; [discriminate|].
    destruct (bytes_eqb (sub_list l 4 data) PE00) eqn:E2; [|discriminate]. cbn [negb] in H.
    destruct (N.ltb_spec (len data) (l + 24)) as [L3|L3]; [discriminate|].
    set (h := dec_pe_header (sub_list (l + 4) 20 data)) in *.
    destruct (N.ltb_spec (len data) (l + 26)) as [L4|L4]; [discriminate|].
    apply bytes_eqb_spec in E1. apply bytes_eqb_spec in E2.
    exists l.
    split. { apply bytes_at_iff. change (len [x4d;x5a]) with 2. split; [lia|auto]. }
    split. { apply u_at_iff. split; auto. }
    split. { apply bytes_at_iff. change (len [x50; x45; x00; x00]) with 4. split; [lia|auto]. }
    set (m := le_dec (sub_list (l + 24) 2 data)) in *.
    assert (forall o sz, (sz = 96 /\ o_pe64 o = false \/ sz = 112 /\ o_pe64 o = true) ->
      optional_header_at data (l + 24) o -> l + 24 + sz <= len data ->
      (if len data <? l + 24 + sz + o_number_of_data_directories o * 8 then None else
       if len data <? l + 24 + sz + o_number_of_data_directories o * 8 + h_number_of_sections h * 40
       then None else
       Some {| pi_header := h; pi_optional_header := o;
            pi_data_directories := map dec_rva_and_size
              (chunks (N.to_nat 8) (N.to_nat (o_number_of_data_directories o))
                 (sub_list (l + 24 + sz) (o_number_of_data_directories o * 8) data));
            pi_sections := map dec_pe_section
              (chunks (N.to_nat 40) (N.to_nat (h_number_of_sections h))
                 (sub_list (l + 24 + sz + o_number_of_data_directories o * 8)
                    (h_number_of_sections h * 40) data)) |}) = Some pi ->
       coff_header_at data (l + 4) (pi_header pi) /\
       optional_header_at data (l + 24) (pi_optional_header pi) /\
       let dirs := l + 24 + (if o_pe64 (pi_optional_header pi) then 112 else 96) in
       len (pi_data_directories pi) = o_number_of_data_directories (pi_optional_header pi) /\
       items_at (data_directory_at data) 8 dirs (pi_data_directories pi) /\
       len (pi_sections pi) = h_number_of_sections (pi_header pi) /\
       items_at (section_header_at data) 40 (dirs + 8 * len (pi_data_directories pi))
         (pi_sections pi)) as Fin.
    { intros o sz Hsz Ho Hlen HH. cbv zeta.
      set (nd := o_number_of_data_directories o) in *. set (ns := h_number_of_sections h) in *.
      destruct (N.ltb_spec (len data) (l + 24 + sz + nd * 8)) as [L5|L5]; [discriminate|].
      destruct (N.ltb_spec (len data) (l + 24 + sz + nd * 8 + ns * 40)) as [L6|L6]; [discriminate|].
      injection HH as <-. cbn [pi_header pi_optional_header pi_data_directories pi_sections].
      split. { apply coff_header_iff. split; [lia|auto]. }
      split; [exact Ho|].
      replace (if o_pe64 o then 112 else 96) with sz by (destruct Hsz as [[-> ->]|[-> ->]]; auto).
      match goal with |- len ?L = _ /\ _ =>
        destruct (items_chunks (data_directory_at data) dec_rva_and_size 8 data (l + 24 + sz) nd L)
          as [_ I1'] end; [intros; apply data_directory_iff|lia|].
      destruct I1' as [I11 I12]; [split; [lia|reflexivity]|].
      split; auto. split; auto. rewrite I11.
      match goal with |- len ?L = _ /\ _ =>
        destruct (items_chunks (section_header_at data) dec_pe_section 40 data (l + 24 + sz + nd * 8) ns L) as [_ I2]
      end; [intros; apply section_header_iff|lia|].
      replace (l + 24 + sz + 8 * nd) with (l + 24 + sz + nd * 8) by lia.
      apply I2. split; [lia|reflexivity]. }
    destruct (N.eqb_spec m 267).
    + destruct (N.ltb_spec (len data) (l + 24 + 96)) as [L5|L5]; [discriminate|].
      eapply Fin; [| | |exact H]; [left; auto| |lia].
      apply optional_header_iff. exists 0x10b. repeat split; auto; lia.
    + destruct (N.eqb_spec m 523); [|discriminate].
      destruct (N.ltb_spec (len data) (l + 24 + 112)) as [L5|L5]; [discriminate|].
      eapply Fin; [| | |exact H]; [right; auto| |lia].
      apply optional_header_iff. exists 0x20b. repeat split; auto; lia.
  - intros (l & H1 & H2 & H3 & H4 & H5 & H6). cbv zeta in H6.
    destruct H6 as (H6 & H7 & H8 & H9).
    apply bytes_at_iff in H1 as [L1 E1]. change (len [x4d;x5a]) with 2 in *.
    apply u_at_iff in H2 as [L2 E2].
    apply bytes_at_iff in H3 as [L3 E3]. change (len [x50;x45;x00;x00]) with 4 in *.
    apply coff_header_iff in H4 as [L4 E4].
    apply optional_header_iff in H5 as (m & Hm & L5 & E5 & H5).
    destruct (N.leb_spec (len data) 2) as [L|L]; [lia|].
    rewrite E1. change (bytes_eqb [x4d;x5a] MZ) with true. cbn [negb].
    destruct (N.ltb_spec (len data) (60 + 4)) as [L6|L6]; [lia|].
    cbv zeta. rewrite <- E2.
    destruct (N.ltb_spec (len data) (l + 4)) as [L7|L7]; [lia|].
    rewrite E3. change (bytes_eqb [x50; x45; x00; x00] PE00) with true. cbn [negb].
    destruct (N.ltb_spec (len data) (l + 24)) as [L8|L8]; [lia|].
    destruct (N.ltb_spec (len data) (l + 26)) as [L9|L9]; [lia|].
    rewrite <- E5, <- E4.
    set (o := pi_optional_header pi) in *. set (h := pi_header pi) in *.
    set (nd := o_number_of_data_directories o) in *. set (ns := h_number_of_sections h) in *.
    assert (forall sz, sz = (if o_pe64 o then 112 else 96) -> l + 24 + sz <= len data ->
      (if len data <? l + 24 + sz + nd * 8 then None else
       if len data <? l + 24 + sz + nd * 8 + ns * 40 then None else
       Some {| pi_header := h; pi_optional_header := o;
            pi_data_directories := map dec_rva_and_size
              (chunks (N.to_nat 8) (N.to_nat nd) (sub_list (l + 24 + sz) (nd * 8) data));
            pi_sections := map dec_pe_section
              (chunks (N.to_nat 40) (N.to_nat ns)
                 (sub_list (l + 24 + sz + nd * 8) (ns * 40) data)) |}) = Some pi) as Fin.
    { intros sz -> Hlen.
      destruct (items_chunks (data_directory_at data) dec_rva_and_size 8 data
        (l + 24 + (if o_pe64 o then 112 else 96)) nd (pi_data_directories pi)) as [I1 _];
        [intros; apply data_directory_iff|lia|].
      destruct I1 as [I11 I12]; [auto|].
      rewrite H6 in H9.
      destruct (items_chunks (section_header_at data) dec_pe_section 40 data
        (l + 24 + (if o_pe64 o then 112 else 96) + 8 * nd) ns (pi_sections pi)) as [I2 _];
        [intros; apply section_header_iff|lia|].
      destruct I2 as [I21 I22]; [auto|].
      replace (8 * nd) with (nd * 8) in * by lia.
      destruct (N.ltb_spec (len data) (l + 24 + (if o_pe64 o then 112 else 96) + nd * 8)); [lia|].
      destruct (N.ltb_spec (len data) (l + 24 + (if o_pe64 o then 112 else 96) + nd * 8 + ns * 40)); [lia|].
      rewrite <- I12, <- I22. destruct pi; reflexivity. }
    destruct Hm as [-> | ->].
    + change (267 =? 267) with true in *. cbv iota in *. destruct H5 as [L10 E10].
      destruct (N.ltb_spec (len data) (l + 24 + 96)) as [L11|L11]; [lia|].
      rewrite <- E10. apply Fin; auto. rewrite E10. reflexivity.
    + change (523 =? 267) with false in *. change (523 =? 523) with true. cbv iota in *.
      destruct H5 as [L10 E10].
      destruct (N.ltb_spec (len data) (l + 24 + 112)) as [L11|L11]; [lia|].
      rewrite <- E10. apply Fin; auto. rewrite E10. reflexivity.
Qed.

(** ** RVA resolution *)

Lemma resolve_rva_ok {S} p rva secs off (s : S) :
  sections_ok secs ->
  (resolve_rva_ p rva secs s = Ok off s <->
   exists sec, first_containing secs rva sec /\
     off = s_pointer_to_raw_data sec + (rva - s_virtual_address sec)).
Proof.
  induction secs as [|sec secs IH]; intro Hok.
  - simpl. split; [discriminate|]. intros (sec & (l1 & l2 & E & _) & _). destruct l1; discriminate.
  - inversion Hok as [|? ? [B1 B2] Hok']; subst. specialize (IH Hok').
    rewrite pow32 in *.
    cbn [resolve_rva_].
    assert (~ section_contains rva sec ->
      ((exists sec0, first_containing secs rva sec0 /\
         off = s_pointer_to_raw_data sec0 + (rva - s_virtual_address sec0)) <->
       (exists sec0, first_containing (sec :: secs) rva sec0 /\
         off = s_pointer_to_raw_data sec0 + (rva - s_virtual_address sec0)))) as Skip.
    { intro Hn. split.
      - intros (sec0 & (l1 & l2 & -> & Hc & Hf) & E). exists sec0. split; auto.
        exists (sec :: l1), l2. repeat split; auto; apply Hc.
      - intros (sec0 & (l1 & l2 & E0 & Hc & Hf) & E). exists sec0. split; auto.
        destruct l1 as [|s1 l1]; simpl in E0; injection E0; intros; subst.
        + contradiction.
        + exists l1, l2. inversion Hf; subst. auto. }
    destruct (N.leb_spec (s_virtual_address sec) rva) as [L1|L1].
    + unfold bind. rewrite u_add_small by (rewrite pow32; lia). cbn [ovf]. unfold ret at 1.
      destruct (N.ltb_spec rva (s_virtual_address sec + s_size_of_raw_data sec)) as [L2|L2].
      * rewrite u_add_small by (rewrite pow32; lia). cbn [ovf]. unfold ret.
        split.
        -- intro E. injection E as E. exists sec. split; [|lia].
           exists [], secs. repeat split; auto.
        -- intros (sec0 & (l1 & l2 & E0 & Hc & Hf) & E).
           destruct l1 as [|s1 l1]; simpl in E0; injection E0; intros; subst.
           ++ f_equal. lia.
           ++ inversion Hf; subst. exfalso. match goal with H : ~ section_contains rva _ |- _ => apply H end.
              split; lia.
      * rewrite IH. apply Skip. unfold section_contains. lia.
    + rewrite IH. apply Skip. unfold section_contains. lia.
Qed.

Lemma resolve_rva_err {S} p rva secs (s : S) :
  sections_ok secs ->
  ((exists e, resolve_rva_ p rva secs s = Err e s) <->
   Forall (fun sec => ~ section_contains rva sec) secs).
Proof.
  induction secs as [|sec secs IH]; intro Hok.
  - simpl. split; [auto|]. intro. eexists. reflexivity.
  - inversion Hok as [|? ? [B1 B2] Hok']; subst. specialize (IH Hok').
    rewrite pow32 in *.
    cbn [resolve_rva_].
    destruct (N.leb_spec (s_virtual_address sec) rva) as [L1|L1].
    + unfold bind. rewrite u_add_small by (rewrite pow32; lia). cbn [ovf]. unfold ret at 1.
      destruct (N.ltb_spec rva (s_virtual_address sec + s_size_of_raw_data sec)) as [L2|L2].
      * rewrite u_add_small by (rewrite pow32; lia). cbn [ovf]. unfold ret. split.
        -- intros [e He]; discriminate.
        -- intro H. inversion H; subst. exfalso. apply H2. split; lia.
      * rewrite IH. split.
        -- intro. constructor; auto. unfold section_contains. lia.
        -- intro H. now inversion H.
    + rewrite IH. split.
      * intro. constructor; auto. unfold section_contains. lia.
      * intro H. now inversion H.
Qed.

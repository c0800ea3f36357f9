(** Proofs about the metadata root and the streams. *)
From Coq Require Import NArith String List Bool Lia.
From Coq.Strings Require Import Byte.
From Verif Require Import Base Utf BinaryReader BaseFacts ParseSpec ReaderFacts SpecBytes Pe SpecPe
  PeProofs SpecUtf UtfProofs ReaderProofs Tables TablesTotal Blob Metadata SpecMetadata.
Import ListNotations.
Open Scope N_scope.

(** ** Reading fields by position. *)
Lemma bytes_at_bound data off bs : bytes_at data off bs -> off + len bs <= len data.
Proof. intros (pre & post & -> & <-). slen. lia. Qed.

Lemma u_at_bound data off w v : u_at data off w v -> off + w <= len data.
Proof. intros (bs & H & <- & _). now apply bytes_at_bound in H. Qed.

Lemma rd_at p n e data pos v : slice_ok data -> u_at data pos n v ->
  rd p n e (mkReader data pos) = Ok v (mkReader data (pos + n)).
Proof.
  intros Hs H. pose proof (u_at_bound _ _ _ _ H) as B.
  destruct H as (bs & Hb & <- & ->).
  unfold rd, bind.
  destruct (read_spec p (len bs) data pos Hs) as [R _].
  { unfold slice_ok in Hs. rewrite pow63 in Hs. rewrite pow64. lia. }
  rewrite (proj1 (R bs Hb eq_refl)). reflexivity.
Qed.

Lemma rd_at_inv p n e data pos v r : slice_ok data -> pos + n < 2 ^ 64 ->
  rd p n e (mkReader data pos) = Ok v r -> u_at data pos n v /\ r = mkReader data (pos + n).
Proof.
  intros Hs Hp H.
  assert (u_at data pos n v) as U by (apply (rd_spec p n e); eauto).
  split; [exact U|]. rewrite (rd_at p n e data pos v Hs U) in H. now injection H.
Qed.

Lemma ldiff4 x : N.ldiff (x + 4) 3 = next4 x.
Proof.
  unfold next4. replace 3 with (N.ones 2) by reflexivity. rewrite N.ldiff_ones_r.
  rewrite N.shiftr_div_pow2, N.shiftl_mul_pow2. change (2 ^ 2) with 4.
  replace (x + 4) with (x + 1 * 4) by lia. rewrite N.div_add by lia. lia.
Qed.

Lemma next4_bounds x : x < next4 x <= x + 4 /\ next4 x mod 4 = 0.
Proof.
  unfold next4. split.
  - pose proof (N.div_mod x 4 ltac:(lia)). pose proof (N.mod_lt x 4 ltac:(lia)). lia.
  - rewrite N.mul_comm. now apply N.mod_mul.
Qed.

(** ** The stream headers. *)
Definition entry_header (e : stream_entry) : stream_header :=
  {| st_offset := se_offset e; st_size := se_size e |}.
Definition collect1 (s : stream_headers) (e : stream_entry) : stream_headers :=
  let h := Some (entry_header e) in
  match se_kind e with
  | SStrings => {| hd_strings := h; hd_us := hd_us s; hd_blob := hd_blob s; hd_guid := hd_guid s; hd_tables := hd_tables s |}
  | SUserStrings => {| hd_strings := hd_strings s; hd_us := h; hd_blob := hd_blob s; hd_guid := hd_guid s; hd_tables := hd_tables s |}
  | SBlob => {| hd_strings := hd_strings s; hd_us := hd_us s; hd_blob := h; hd_guid := hd_guid s; hd_tables := hd_tables s |}
  | SGuid => {| hd_strings := hd_strings s; hd_us := hd_us s; hd_blob := hd_blob s; hd_guid := h; hd_tables := hd_tables s |}
  | STables => {| hd_strings := hd_strings s; hd_us := hd_us s; hd_blob := hd_blob s; hd_guid := hd_guid s; hd_tables := h |}
  end.

Lemma set_stream_text e s r :
  set_stream (stream_text (se_kind e)) (entry_header e) s r = Ok (collect1 s e) r.
Proof. destruct e as [[] o z]; reflexivity. Qed.

Lemma set_stream_inv name h s s' r r' : set_stream name h s r = Ok s' r' ->
  exists k, name = stream_text k /\
    s' = collect1 s {| se_kind := k; se_offset := st_offset h; se_size := st_size h |} /\ r' = r.
Proof.
  unfold set_stream. intro H.
  destruct h as [o z].
  repeat match type of H with
  | context [if ?b then _ else _] => destruct b eqn:?
  end; try discriminate; cbv beta iota delta [ret] in H; injection H as <- <-;
  match goal with H : bytes_eqb name _ = true |- _ => apply bytes_eqb_spec in H; subst name end;
  [exists SStrings|exists SUserStrings|exists SBlob|exists SGuid|exists STables]; repeat split.
Qed.

Lemma stream_text_nonul k : ~ In x00 (stream_text k).
Proof. destruct k; cbn; intuition discriminate. Qed.
Lemma stream_text_utf8 k : utf8_valid (stream_text k) = true.
Proof. destruct k; reflexivity. Qed.
Lemma stream_text_len k : len (stream_text k) <= 8.
Proof. destruct k; discriminate. Qed.

Lemma bytes_at_snoc_inv data off t c : bytes_at data off (t ++ [c]) ->
  bytes_at data off t /\ bytes_at data (off + len t) [c].
Proof.
  intros (pre & post & -> & <-). split.
  - exists pre, ([c] ++ post). split; [now rewrite <- app_assoc|reflexivity].
  - exists (pre ++ t), post. split; [now rewrite <- !app_assoc|]. slen. lia.
Qed.

(** The result of a successful C string read, whatever the position. *)
Lemma read_c_str_inv p data pos t r : slice_ok data ->
  read_c_str p (mkReader data pos) = Ok (Some t) r ->
  bytes_at data pos (t ++ [x00]) /\ ~ In x00 t /\ utf8_valid t = true /\
  r = mkReader data (pos + len t).
Proof.
  intros Hs H. pose proof H as H0. unfold read_c_str in H. cbn [rdata rpos] in H.
  destruct (N.ltb_spec (len data) pos) as [L|L]; [discriminate|].
  destruct (split_at1 pos data L) as (pre & rest & -> & <-).
  rewrite skipn_app_len in H.
  destruct (in_dec Byte.byte_eq_dec x00 rest) as [Hi|Hi].
  - apply nul_split in Hi. destruct Hi as (u & rest' & -> & Hu).
    assert (bytes_at (pre ++ u ++ x00 :: rest') (len pre) (u ++ [x00])) as Hb.
    { exists pre, rest'. split; [|reflexivity]. now rewrite <- app_assoc. }
    destruct (read_c_str_spec p _ _ u Hs Hb Hu) as [G B].
    destruct (utf8_valid u) eqn:Ev.
    + rewrite G in H0 by (now apply utf8_valid_spec). injection H0 as <- <-. auto.
    + destruct B as (r' & B & _).
      { intro Hv. apply utf8_valid_spec in Hv. congruence. }
      rewrite B in H0. discriminate.
  - rewrite nul_position_none in H by auto. discriminate.
Qed.

Lemma read_c_str_calm p data pos : slice_ok data -> pos <= len data ->
  exists o k, read_c_str p (mkReader data pos) = Ok o (mkReader data k) /\ k <= len data.
Proof.
  intros Hs L.
  destruct (split_at1 pos data L) as (pre & rest & -> & <-).
  destruct (in_dec Byte.byte_eq_dec x00 rest) as [Hi|Hi].
  - apply nul_split in Hi. destruct Hi as (u & rest' & -> & Hu).
    exists (if utf8_valid u then Some u else None), (len pre + len u).
    rewrite read_c_str_run by auto. split; [reflexivity|slen; lia].
  - exists None, (len pre). split; [|lia].
    unfold read_c_str. cbn [rdata rpos].
    destruct (N.ltb_spec (len (pre ++ rest)) (len pre)); [lia|].
    rewrite skipn_app_len, nul_position_none by auto. reflexivity.
Qed.

Lemma headers_run p md es : forall off s, slice_ok md -> headers_at md off es ->
  exists k, read_stream_headers p (List.length es) s (mkReader md off) =
    Ok (fold_left collect1 es s) (mkReader md k).
Proof.
  induction es as [|e es IH]; intros off s Hs H.
  - exists off. reflexivity.
  - cbn [headers_at seq_at] in H. destruct H as ((U1 & U2 & _) & Hb & Hr).
    destruct (IH _ (collect1 s e) Hs Hr) as [k Hk]. exists k.
    cbn [List.length read_stream_headers fold_left].
    rewrite (bind_ok _ _ _ _ _ (rd_at p 4 bad_header md off _ Hs U1)).
    rewrite (bind_ok _ _ _ _ _ (rd_at p 4 bad_header md _ _ Hs U2)).
    replace (off + 4 + 4) with (off + 8) in * by lia.
    destruct (read_c_str_spec p md (off + 8) (stream_text (se_kind e)) Hs Hb (stream_text_nonul _)) as [G _].
    rewrite (bind_ok _ _ _ _ _ (G (proj1 (utf8_valid_spec _) (stream_text_utf8 _)))).
    unfold bind at 1, ok_or, ret at 1.
    unfold bind at 1, get_state at 1. cbn [rpos].
    unfold bind at 1, goto at 1. cbn [rdata rpos]. rewrite ldiff4.
    change ({| st_offset := se_offset e; st_size := se_size e |}) with (entry_header e).
    rewrite (bind_ok _ _ _ _ _ (set_stream_text e s _)).
    exact Hk.
Qed.

Lemma headers_inv p md n : forall off s hs r, slice_ok md -> off <= len md + 4 ->
  read_stream_headers p n s (mkReader md off) = Ok hs r ->
  exists es, List.length es = n /\ headers_at md off es /\ hs = fold_left collect1 es s.
Proof.
  induction n as [|n IH]; intros off s hs r Hs Ho H.
  - cbv beta iota delta [read_stream_headers ret] in H. injection H as <- _. exists []. repeat split.
  - assert (len md < 2 ^ 63) as Hl by exact Hs. rewrite pow63 in Hl.
    cbn [read_stream_headers] in H.
    apply bind_inv_ok in H. destruct H as (o1 & r1 & H1 & H).
    apply rd_at_inv in H1; [|auto|rewrite pow64; lia]. destruct H1 as [U1 ->].
    pose proof (u_at_bound _ _ _ _ U1).
    apply bind_inv_ok in H. destruct H as (o2 & r2 & H2 & H).
    apply rd_at_inv in H2; [|auto|rewrite pow64; lia]. destruct H2 as [U2 ->].
    pose proof (u_at_bound _ _ _ _ U2).
    apply bind_inv_ok in H. destruct H as (ot & r3 & H3 & H).
    apply bind_inv_ok in H. destruct H as (t & r4 & H4 & H).
    destruct ot as [t'|]; [|discriminate H4].
    cbv beta iota delta [ok_or ret] in H4. injection H4 as -> <-.
    apply read_c_str_inv in H3; [|auto]. destruct H3 as (Hb & Hn & Hu & ->).
    pose proof (bytes_at_bound _ _ _ Hb) as Hbb. rewrite len_app, len_cons, len_nil in Hbb.
    unfold bind at 1, get_state at 1 in H. cbn [rpos] in H.
    unfold bind at 1, goto at 1 in H. cbn [rdata rpos] in H. rewrite ldiff4 in H.
    apply bind_inv_ok in H. destruct H as (s' & r5 & H5 & H).
    apply set_stream_inv in H5. destruct H5 as (k & -> & -> & ->).
    cbn [st_offset st_size] in H.
    pose proof (next4_bounds (off + 4 + 4 + len (stream_text k))) as [Nb _].
    apply IH in H; [|auto|lia].
    destruct H as (es & Hl' & Hh & ->).
    exists ({| se_kind := k; se_offset := o1; se_size := o2 |} :: es).
    split; [cbn; congruence|]. split; [|reflexivity].
    cbn [headers_at seq_at se_kind se_offset se_size].
    replace (off + 8) with (off + 4 + 4) by lia. auto.
Qed.

(** A run that ends with a value or an error. *)
Definition fine {S A} (x : res S A) : Prop :=
  match x with Ok _ _ | Err _ _ => True | _ => False end.

Lemma total_headers p md n : forall off s, slice_ok md -> off <= len md + 4 ->
  fine (read_stream_headers p n s (mkReader md off)).
Proof.
  induction n as [|n IH]; intros off s Hs Ho.
  - exact I.
  - assert (len md < 2 ^ 63) as Hl by exact Hs. rewrite pow63 in Hl.
    cbn [read_stream_headers].
    destruct (read_spec p 4 md off Hs ltac:(rewrite pow64; lia)) as [R N1].
    destruct (N.leb_spec (off + 4) (len md)) as [L1|L1].
    2:{ unfold bind at 1, rd, bind at 1.
        rewrite (proj1 (N1 ltac:(lia))); exact I. }
    rewrite (bind_ok _ _ _ _ _ (rd_at p 4 bad_header md off _ Hs
       ltac:(exists (sub_list off 4 md); split; [apply sub_list_bytes_at; lia|split; [apply len_sub_list; lia|reflexivity]]))).
    destruct (read_spec p 4 md (off + 4) Hs ltac:(rewrite pow64; lia)) as [R' N2].
    destruct (N.leb_spec (off + 4 + 4) (len md)) as [L2|L2].
    2:{ unfold bind at 1, rd, bind at 1.
        rewrite (proj1 (N2 ltac:(lia))); exact I. }
    rewrite (bind_ok _ _ _ _ _ (rd_at p 4 bad_header md (off + 4) _ Hs
       ltac:(exists (sub_list (off + 4) 4 md); split; [apply sub_list_bytes_at; lia|split; [apply len_sub_list; lia|reflexivity]]))).
    destruct (read_c_str_calm p md (off + 4 + 4) Hs L2) as (o & k & E & Lk).
    rewrite (bind_ok _ _ _ _ _ E).
    destruct o as [t|]; [|exact I].
    unfold bind at 1, ok_or, ret at 1.
    unfold bind at 1, get_state at 1. cbn [rpos].
    unfold bind at 1, goto at 1. cbn [rdata rpos]. rewrite ldiff4.
    unfold bind at 1.
    match goal with |- context [set_stream ?n ?h ?s ?r] => destruct (set_stream n h s r) as [s'' r''|e r''|w|w|] eqn:Es end.
    + apply set_stream_inv in Es. destruct Es as (kk & -> & -> & ->).
      cbv beta iota. apply IH; [exact Hs|]. pose proof (next4_bounds k). lia.
    + exact I.
    + exfalso. unfold set_stream in Es. repeat match type of Es with context [if ?b then _ else _] => destruct b end; discriminate.
    + exfalso. unfold set_stream in Es. repeat match type of Es with context [if ?b then _ else _] => destruct b end; discriminate.
    + exfalso. unfold set_stream in Es. repeat match type of Es with context [if ?b then _ else _] => destruct b end; discriminate.
Qed.

(** ** The metadata root. *)
Lemma u_at_read data pos n : pos + n <= len data ->
  u_at data pos n (le_dec (sub_list pos n data)).
Proof.
  intro L. exists (sub_list pos n data). split; [now apply sub_list_bytes_at|].
  split; [now apply len_sub_list|reflexivity].
Qed.

Lemma u_at_unique data pos n a b : u_at data pos n a -> u_at data pos n b -> a = b.
Proof.
  intros (x & Hx & Lx & ->) (y & Hy & Ly & ->).
  now rewrite (bytes_at_unique _ _ _ _ Hx Hy) by congruence.
Qed.

Lemma advance_at p n data pos : pos + n < 2 ^ 64 -> pos + n <= len data ->
  advance p n (mkReader data pos) = Ok true (mkReader data (pos + n)).
Proof.
  intros H1 H2. rewrite advance_ok by exact H1. cbn [rdata rpos].
  now rewrite (proj2 (N.leb_le _ _) H2).
Qed.

Lemma root_run p md es : slice_ok md -> root_at md es ->
  exists k, read_root p (mkReader md 0) = Ok (fold_left collect1 es no_streams) (mkReader md k).
Proof.
  intros Hs (text & pad & Hsig & Hlen & Hv & Hu & Hn & Hp & Hc & Hh).
  assert (len md < 2 ^ 63) as Hl by exact Hs. rewrite pow63 in Hl.
  pose proof (bytes_at_bound _ _ _ Hv) as B1. pose proof (u_at_bound _ _ _ _ Hc) as B2.
  unfold read_root.
  destruct (read_spec p 4 md 0 Hs ltac:(rewrite pow64; lia)) as [R _].
  rewrite (bind_ok _ _ _ _ _ (proj1 (R _ Hsig eq_refl))). clear R.
  change (le_dec [x42; x53; x4a; x42] =? 0x424A5342) with true. cbv iota.
  unfold bind at 1, ret at 1.
  rewrite (bind_ok _ _ (mkReader md (0 + 4)) true (mkReader md (0 + 4 + 8))).
  2:{ apply advance_at; rewrite ?pow64; lia. }
  cbv beta iota delta [negb]. unfold bind at 1, ret at 1.
  change (0 + 4 + 8) with 12.
  rewrite (bind_ok _ _ _ _ _ (rd_at p 4 bad_header md 12 _ Hs Hlen)).
  change (12 + 4) with 16.
  rewrite (bind_ok _ _ _ _ _ (read_str_spec p md 16 text pad Hs Hn Hv Hp Hu)).
  unfold bind at 1, ok_or, ret at 1.
  set (v := len (text ++ pad)) in *.
  rewrite (bind_ok _ _ (mkReader md (16 + v)) true (mkReader md (16 + v + 2))).
  2:{ apply advance_at; rewrite ?pow64; lia. }
  rewrite (bind_ok _ _ _ _ _ (rd_at p 2 bad_header md (16 + v + 2) _ Hs Hc)).
  rewrite to_nat_len. replace (16 + v + 2 + 2) with (16 + v + 4) by lia.
  now apply headers_run.
Qed.

Lemma root_inv p md hs r : slice_ok md -> read_root p (mkReader md 0) = Ok hs r ->
  exists es, root_at md es /\ hs = fold_left collect1 es no_streams.
Proof.
  intros Hs H.
  assert (len md < 2 ^ 63) as Hl by exact Hs. rewrite pow63 in Hl.
  unfold read_root in H.
  destruct (N.leb_spec 4 (len md)) as [L0|L0].
  2:{ rewrite (bind_ok _ _ _ _ _ (read_none p 4 (mkReader md 0) ltac:(cbn [rdata rpos]; lia) ltac:(cbn [rdata rpos]; rewrite pow64; lia))) in H. discriminate H. }
  pose proof (proj1 (sub_list_bytes_at md 0 4 ltac:(lia))) as Hsig.
  destruct (read_spec p 4 md 0 Hs ltac:(rewrite pow64; lia)) as [R _].
  rewrite (bind_ok _ _ _ _ _ (proj1 (R _ Hsig ltac:(apply len_sub_list; lia)))) in H. clear R.
  destruct (le_dec (sub_list 0 4 md) =? 0x424A5342) eqn:Em; [|discriminate H].
  apply N.eqb_eq in Em.
  assert (sub_list 0 4 md = [x42; x53; x4a; x42]) as Es.
  { apply le_dec_inj; [|exact Em].
    pose proof (len_sub_list 0 4 md ltac:(lia)) as E. unfold len in E. cbn [List.length]. lia. }
  rewrite Es in Hsig. clear Em Es.
  unfold bind at 1, ret at 1 in H.
  apply bind_inv_ok in H. destruct H as (ok & r1 & H1 & H).
  assert (ok = true /\ r1 = mkReader md 12 /\ 12 <= len md) as (-> & -> & L1).
  { rewrite advance_ok in H1 by (cbn [rpos]; rewrite pow64; lia). cbn [rdata rpos] in H1.
    destruct (N.leb_spec (0 + 4 + 8) (len md)).
    - injection H1 as <- <-. repeat split; lia.
    - injection H1 as <- <-. discriminate H. }
  clear H1. cbv beta iota delta [negb] in H. unfold bind at 1, ret at 1 in H.
  apply bind_inv_ok in H. destruct H as (v & r2 & H2 & H).
  apply rd_at_inv in H2; [|auto|rewrite pow64; lia]. destruct H2 as [Hlen ->].
  pose proof (u_at_bound _ _ _ _ Hlen) as L2. change (12 + 4) with 16 in *.
  assert (v < 2 ^ 32) as Lv.
  { destruct Hlen as (bs & _ & Lb & ->). pose proof (le_dec_bound bs) as B. rewrite Lb in B. exact B. }
  rewrite pow32 in Lv.
  apply bind_inv_ok in H. destruct H as (ot & r3 & H3 & H).
  apply bind_inv_ok in H. destruct H as (t & r4 & H4 & H).
  destruct ot as [t'|]; [|discriminate H4].
  cbv beta iota delta [ok_or ret] in H4. injection H4 as -> <-.
  assert (exists pad, v = len (t ++ pad) /\ bytes_at md 16 (t ++ pad) /\ is_utf8 t /\ ~ In x00 t /\
            (pad = [] \/ exists pad', pad = x00 :: pad') /\ r3 = mkReader md (16 + v)) as
    (pad & -> & Hv & Hu & Hn & Hp & ->).
  { unfold read_str in H3.
    destruct (N.leb_spec (16 + v) (len md)) as [L3|L3].
    - destruct (split_at 16 v md L3) as (pre & b & post & -> & Lp & Lb).
      rewrite <- Lp in H3.
      assert (len pre + v * 1 <= len (pre ++ b ++ post)) as L4 by (slen; lia).
      rewrite (bind_ok _ _ _ _ _ (read_array_ok p 1 v (mkReader _ _) Hs L4)) in H3.
      cbn [rdata rpos] in H3.
      replace (v * 1) with (len b) in H3 by lia.
      rewrite sub_list_app in H3.
      unfold ret in H3.
      destruct (in_dec Byte.byte_eq_dec x00 b) as [Hi|Hi].
      + apply nul_split in Hi. destruct Hi as (u & rest & -> & Hu).
        rewrite nul_position_app in H3 by auto.
        replace (sub_list 0 (len u) (u ++ x00 :: rest)) with u in H3
          by (unfold sub_list; rewrite N2Nat.inj_0; cbn [skipn]; now rewrite firstn_app_len).
        destruct (utf8_valid u) eqn:Ev; [|discriminate H3].
        injection H3 as <- <-. exists (x00 :: rest).
        split; [now rewrite Lb|]. split; [exists pre, post; split; [reflexivity|exact Lp]|].
        split; [now apply utf8_valid_spec|]. split; [auto|]. split; [eauto|].
        f_equal. slen. lia.
      + rewrite nul_position_none in H3 by auto.
        rewrite sub_list_0 in H3.
        destruct (utf8_valid b) eqn:Ev; [|discriminate H3].
        injection H3 as <- <-. exists []. rewrite app_nil_r.
        split; [now rewrite Lb|]. split; [exists pre, post; split; [reflexivity|exact Lp]|].
        split; [now apply utf8_valid_spec|]. split; [auto|]. split; [eauto|].
        f_equal. slen. lia.
    - rewrite (bind_ok _ _ _ _ _ (read_array_none p 1 v (mkReader md 16) ltac:(cbn [rdata rpos]; lia) ltac:(cbn [rdata rpos]; rewrite pow64; lia))) in H3.
      discriminate H3. }
  pose proof (bytes_at_bound _ _ _ Hv) as L3.
  set (v := len (t ++ pad)) in *.
  apply bind_inv_ok in H. destruct H as (ok & r5 & H5 & H).
  rewrite advance_ok in H5 by (cbn [rpos]; rewrite pow64; lia). cbn [rdata rpos] in H5.
  apply bind_inv_ok in H. destruct H as (c & r6 & H6 & H).
  assert (r5 = mkReader md (16 + v + 2)) as ->.
  { now injection H5. }
  apply rd_at_inv in H6; [|auto|rewrite pow64; lia]. destruct H6 as [Hc ->].
  pose proof (u_at_bound _ _ _ _ Hc) as L6.
  replace (16 + v + 2 + 2) with (16 + v + 4) in H by lia.
  apply headers_inv in H; [|auto|lia]. destruct H as (es & He & Hh & ->).
  exists es. split; [|reflexivity]. exists t, pad.
  repeat (split; [assumption|]).
  split; [|assumption]. replace (len es) with c by (unfold len; lia). assumption.
Qed.

Lemma fine_bind {S A B} (m : M S A) (k : A -> M S B) s :
  fine (m s) -> (forall a s', m s = Ok a s' -> fine (k a s')) -> fine (bind m k s).
Proof. unfold bind. destruct (m s); cbn; auto. Qed.

Lemma fine_total {A} (m : M reader A) r : total m -> in_bounds r -> fine (m r).
Proof. intros Ht Hb. specialize (Ht r Hb). destruct (m r); cbn; auto. Qed.

Lemma rd_fine p n e data pos : slice_ok data -> pos + n < 2 ^ 64 -> fine (rd p n e (mkReader data pos)).
Proof.
  intros Hs Hp. unfold rd, bind.
  destruct (read_spec p n data pos Hs Hp) as [R N0].
  destruct (N.leb_spec (pos + n) (len data)) as [L|L].
  - destruct (sub_list_bytes_at data pos n L) as [B1 B2].
    rewrite (proj1 (R _ B1 B2)). exact I.
  - rewrite (proj1 (N0 L)). exact I.
Qed.

Lemma root_fine p md : slice_ok md -> fine (read_root p (mkReader md 0)).
Proof.
  intro Hs.
  assert (len md < 2 ^ 63) as Hl by exact Hs. rewrite pow63 in Hl.
  unfold read_root.
  destruct (read_spec p 4 md 0 Hs ltac:(rewrite pow64; lia)) as [R N0].
  destruct (N.leb_spec (0 + 4) (len md)) as [L|L].
  2:{ unfold bind at 1. rewrite (proj1 (N0 L)). exact I. }
  destruct (sub_list_bytes_at md 0 4 ltac:(lia)) as [B1 B2].
  rewrite (bind_ok _ _ _ _ _ (proj1 (R _ B1 B2))).
  destruct (_ =? _); [|exact I]. unfold bind at 1, ret at 1.
  rewrite (bind_ok _ _ _ _ _ (advance_ok p 8 (mkReader md (0 + 4)) ltac:(cbn [rpos]; rewrite pow64; lia))).
  cbn [rdata rpos]. destruct (N.leb_spec (0 + 4 + 8) (len md)) as [L1|L1]; cbv beta iota delta [negb]; [|exact I].
  unfold bind at 1, ret at 1.
  apply fine_bind; [apply rd_fine; [auto|rewrite pow64; lia]|].
  intros v r2 H2. apply rd_at_inv in H2; [|auto|rewrite pow64; lia]. destruct H2 as [Hlen ->].
  pose proof (u_at_bound _ _ _ _ Hlen) as L2.
  change (0 + 4 + 8) with 12 in *. change (12 + 4) with 16 in *.
  assert (v < 2 ^ 32) as Lv.
  { destruct Hlen as (bs & _ & Lb & ->). pose proof (le_dec_bound bs) as B. rewrite Lb in B. exact B. }
  rewrite pow32 in Lv.
  assert (exists o k, read_str p v (mkReader md 16) = Ok o (mkReader md k) /\ k <= len md) as (o & k & E & Lk).
  { unfold read_str. destruct (N.leb_spec (16 + v * 1) (len md)) as [L3|L3].
    - rewrite (bind_ok _ _ _ _ _ (read_array_ok p 1 v (mkReader md 16) Hs L3)). cbn [rdata rpos].
      eexists _, (16 + v * 1). split; [reflexivity|lia].
    - rewrite (bind_ok _ _ _ _ _ (read_array_none p 1 v (mkReader md 16) L3 ltac:(cbn [rdata rpos]; rewrite pow64; lia))).
      exists None, 16. split; [reflexivity|lia]. }
  rewrite (bind_ok _ _ _ _ _ E).
  destruct o; [|exact I]. unfold bind at 1, ok_or, ret at 1.
  rewrite (bind_ok _ _ _ _ _ (advance_ok p 2 (mkReader md k) ltac:(cbn [rpos]; rewrite pow64; lia))).
  cbn [rdata rpos].
  apply fine_bind; [apply rd_fine; [auto|rewrite pow64; lia]|].
  intros c r3 H3. apply rd_at_inv in H3; [|auto|rewrite pow64; lia]. destruct H3 as [Hc ->].
  pose proof (u_at_bound _ _ _ _ Hc).
  apply total_headers; [auto|lia].
Qed.

(** ** The streams found in the headers. *)
Definition hd (k : stream_kind) (s : stream_headers) : option stream_header :=
  match k with
  | SStrings => hd_strings s | SUserStrings => hd_us s | SBlob => hd_blob s
  | SGuid => hd_guid s | STables => hd_tables s
  end.

Definition kind_eq_dec (a b : stream_kind) : {a = b} + {a <> b}.
Proof. decide equality. Defined.

Lemma hd_collect1 k s e : hd k (collect1 s e) =
  if kind_eq_dec (se_kind e) k then Some (entry_header e) else hd k s.
Proof. destruct e as [[] o z], k; reflexivity. Qed.

Lemma hd_fold_none k es : forall s, (forall e, In e es -> se_kind e <> k) ->
  hd k (fold_left collect1 es s) = hd k s.
Proof.
  induction es as [|e es IH]; intros s H; [reflexivity|]. cbn [fold_left].
  rewrite IH by (intros e' Hi; apply H; now right). rewrite hd_collect1.
  destruct (kind_eq_dec _ _) as [E|]; [|reflexivity]. exfalso. exact (H e (or_introl eq_refl) E).
Qed.

Lemma hd_fold_one k es e : forall s, one_each es -> In e es -> se_kind e = k ->
  hd k (fold_left collect1 es s) = Some (entry_header e).
Proof.
  unfold one_each. induction es as [|e' es IH]; intros s Hn Hi Hk; [destruct Hi|].
  cbn [fold_left map] in *. inversion Hn as [|? ? Hx Hn']; subst.
  destruct Hi as [->|Hi].
  - rewrite hd_fold_none.
    + rewrite hd_collect1. destruct (kind_eq_dec _ _); [reflexivity|contradiction].
    + intros e2 H2 E2. apply Hx. rewrite <- E2. now apply in_map.
  - now apply IH.
Qed.

Lemma hd_fold_some k es : forall s, (exists e, In e es /\ se_kind e = k) ->
  exists e, In e es /\ se_kind e = k /\ hd k (fold_left collect1 es s) = Some (entry_header e).
Proof.
  induction es as [|e es IH]; intros s (e0 & Hi & Hk); [destruct Hi|].
  cbn [fold_left].
  destruct (existsb (fun x => if kind_eq_dec (se_kind x) k then true else false) es) eqn:Ex.
  - apply existsb_exists in Ex. destruct Ex as (x & Hx & Ek).
    destruct (kind_eq_dec (se_kind x) k) as [Ek'|]; [|discriminate].
    destruct (IH (collect1 s e)) as (y & Hy & Hyk & Ey); [eauto|].
    exists y. split; [now right|]. auto.
  - assert (forall x, In x es -> se_kind x <> k) as Hno.
    { intros x Hx E. assert (existsb (fun x => if kind_eq_dec (se_kind x) k then true else false) es = true) as E'.
      { apply existsb_exists. exists x. split; [exact Hx|]. destruct (kind_eq_dec (se_kind x) k); [reflexivity|contradiction]. }
      congruence. }
    destruct Hi as [<-|Hi]; [|exfalso; exact (Hno _ Hi Hk)].
    exists e. split; [now left|]. split; [exact Hk|].
    rewrite hd_fold_none by exact Hno. rewrite hd_collect1.
    destruct (kind_eq_dec _ _); [reflexivity|contradiction].
Qed.

Lemma stream_slice_at p md e content : len md < 2 ^ 32 ->
  bytes_at md (se_offset e) content -> len content = se_size e ->
  stream_slice p md (entry_header e) tt = Ok content tt.
Proof.
  intros Hl Hb Hc. pose proof (bytes_at_bound _ _ _ Hb) as B.
  unfold stream_slice, bind, entry_header. cbn [st_offset st_size].
  rewrite u_add_small by lia. cbn [ovf]. unfold ret at 1, slice_range.
  destruct (N.ltb_spec (se_offset e + se_size e) (se_offset e)); [lia|].
  destruct (N.ltb_spec (len md) (se_offset e + se_size e)); [lia|].
  replace (se_offset e + se_size e - se_offset e) with (len content) by lia.
  apply bytes_at_iff in Hb. destruct Hb as [_ ->]. reflexivity.
Qed.

(** ** The whole of [Metadata::read]. *)
Lemma parse_pe_layout p data pi : slice_ok data -> pe_layout data pi ->
  exists r, parse_pe_m p (new_reader data) = Ok pi r.
Proof.
  intros Hs H. apply pe_result_layout in H. pose proof (parse_pe_result p data Hs) as R.
  unfold parse_pe in R. destruct (parse_pe_m p (new_reader data)) as [pi' r|? ?| | |]; try tauto.
  - destruct R as [_ R]. rewrite H in R. injection R as <-. eauto.
  - destruct R as [_ R]. congruence.
Qed.

Lemma slice_from_at data off n : off + n <= len data ->
  exists d, slice_from data off tt = Ok d tt /\ len d = len data - off /\
    forall o w, sub_list o w d = sub_list (off + o) w data.
Proof.
  intro L. destruct (split_at1 off data ltac:(lia)) as (pre & d & -> & <-).
  exists d. unfold slice_from. destruct (N.ltb_spec (len (pre ++ d)) (len pre)); [slen; lia|].
  rewrite skipn_app_len. split; [reflexivity|]. split; [slen; lia|].
  intros o w. unfold sub_list. f_equal.
  rewrite N2Nat.inj_add. rewrite <- (skipn_skipn_add (N.to_nat o) (N.to_nat (len pre))).
  now rewrite skipn_app_len.
Qed.

Lemma slice_ok_shorter {d d' : list byte} : len d' <= len d -> slice_ok d -> slice_ok d'.
Proof. unfold slice_ok. lia. Qed.

Definition cli_of (md_rva md_size token rr rz : N) : cli_header :=
  {| ch_metadata := {| rs_rva := md_rva; rs_size := md_size |}; ch_entry_point := token;
     ch_resources := {| rs_rva := rr; rs_size := rz |} |}.

Lemma read_cli_header p data off : slice_ok data -> off <= len data ->
  exists hdr, slice_from data off tt = Ok hdr tt /\
  exists x, on_reader (new_reader hdr) (read p CLI_HEADER_SIZE) tt = Ok x tt /\
  match x with
  | None => len data < off + 72
  | Some d => off + 72 <= len data /\ forall mr mz tok rr rz,
      cli_header_at data off mr mz tok rr rz <-> dec_cli_header d = cli_of mr mz tok rr rz
  end.
Proof.
  intros Hs L. destruct (slice_from_at data off 0 ltac:(lia)) as (d & E & Ld & Sd).
  exists d. split; [exact E|].
  assert (slice_ok d) as Hd by (apply (slice_ok_shorter (d := data)); [lia|auto]).
  assert (len data < 2 ^ 63) as Hl by exact Hs. rewrite pow63 in Hl.
  unfold on_reader, new_reader, CLI_HEADER_SIZE.
  destruct (read_spec p 72 d 0 Hd ltac:(rewrite pow64; lia)) as [R N0].
  destruct (N.leb_spec (0 + 72) (len d)) as [L1|L1].
  2:{ rewrite (proj1 (N0 L1)). exists None. split; [reflexivity|lia]. }
  destruct (sub_list_bytes_at d 0 72 L1) as [B1 B2].
  rewrite (proj1 (R _ B1 B2)). exists (Some (sub_list 0 72 d)). split; [reflexivity|].
  rewrite Sd, N.add_0_r.
  split; [lia|]. intros mr mz tok rr rz.
  unfold cli_header_at, dec_cli_header, cli_of, dec_rva_and_size, fld.
  cbn [seq_at].
  rewrite !sub_sub by lia. rewrite !u_at_iff.
  replace (off + (8 + 0)) with (off + 8) by lia. replace (off + (8 + 4)) with (off + 8 + 4) by lia.
  replace (off + (24 + 0)) with (off + 20 + 4) by lia. replace (off + (24 + 4)) with (off + 20 + 4 + 4) by lia.
  split.
  - intros (_ & ((_ & ->) & (_ & ->) & _) & (_ & ->) & (_ & ->) & (_ & ->) & _). reflexivity.
  - intro Eq. injection Eq as <- <- <- <- <-. repeat split; lia.
Qed.

Lemma maps_to_run {S} p pi rva off (s : S) : sections_ok (pi_sections pi) ->
  (resolve_rva p pi rva s = Ok off s <-> maps_to pi rva off).
Proof. intro H. unfold resolve_rva, maps_to. now apply resolve_rva_ok. Qed.

Lemma resolve_fine {S} p pi rva (s : S) : sections_ok (pi_sections pi) ->
  (exists off, resolve_rva p pi rva s = Ok off s) \/ (exists e, resolve_rva p pi rva s = Err e s).
Proof.
  unfold resolve_rva. induction (pi_sections pi) as [|x l IH]; intro H.
  - right. eexists. reflexivity.
  - inversion H as [|? ? [B1 B2] Hl]; subst. rewrite pow32 in *. specialize (IH Hl).
    cbn [resolve_rva_].
    destruct (N.leb_spec (s_virtual_address x) rva); [|exact IH].
    unfold bind. rewrite u_add_small by (rewrite pow32; lia). cbn [ovf]. unfold ret.
    destruct (N.ltb_spec rva (s_virtual_address x + s_size_of_raw_data x)).
    + left. rewrite u_add_small by (rewrite pow32; lia). cbn [ovf]. eexists. reflexivity.
    + exact IH.
Qed.

Lemma maps_to_inside (data : list byte) pi rva off : Forall (fun s => s_pointer_to_raw_data s + s_size_of_raw_data s <= len data) (pi_sections pi) ->
  maps_to pi rva off -> off <= len data.
Proof.
  intros Hf (s & (l1 & l2 & E & [C1 C2] & _) & ->). rewrite E in Hf.
  apply Forall_app in Hf. destruct Hf as [_ Hf]. inversion Hf; subst. lia.
Qed.

Lemma slice_range_at data off md : bytes_at data off md ->
  slice_range data off (off + len md) tt = Ok md tt.
Proof.
  intro Hb. pose proof (bytes_at_bound _ _ _ Hb) as B. unfold slice_range.
  destruct (N.ltb_spec (off + len md) off); [lia|].
  destruct (N.ltb_spec (len data) (off + len md)); [lia|].
  replace (off + len md - off) with (len md) by lia.
  apply bytes_at_iff in Hb. destruct Hb as [_ ->]. reflexivity.
Qed.

Definition metadata_of (data : list byte) (pi : pe_info) (cli : cli_header)
    (strings us blob guid : list byte) (T : tables) : metadata :=
  {| m_pe_data := data; m_pe_info := pi; m_cli_header := cli; m_strings := strings;
     m_user_strings := us; m_blob := blob; m_guid := guid; m_tables := T;
     m_entry_point := entry_point_of (ch_entry_point cli) |}.

Lemma read_metadata_run p data pi md token rr rz es strings us blob guid tdata T r :
  slice_ok data -> image_metadata data pi md token rr rz -> root_at md es -> one_each es ->
  designates md es SStrings strings -> designates md es SBlob blob ->
  designates md es SGuid guid -> designates md es STables tdata ->
  (designates md es SUserStrings us \/ (us = [] /\ forall e, In e es -> se_kind e <> SUserStrings)) ->
  read_table_stream p (mkReader tdata 0) = Ok T r ->
  exists md_rva, read_metadata p data tt =
    Ok (metadata_of data pi (cli_of md_rva (len md) token rr rz) strings us blob guid T) tt.
Proof.
  intros Hs (Hpe & Hsec & dir & cli_off & md_rva & md_off & Hdir & Hcli & Hch & Hmd & Hb) Hroot Hone
    Dstr Dblob Dguid Dtab Dus Ht.
  exists md_rva.
  destruct (parse_pe_layout p data pi Hs Hpe) as [r0 Epe].
  unfold read_metadata.
  rewrite (bind_ok _ _ tt pi tt) by (unfold on_reader; now rewrite Epe).
  rewrite (bind_ok _ _ tt dir tt) by (unfold ok_or; now rewrite Hdir).
  apply (maps_to_run p _ _ _ tt) in Hcli; [|auto].
  rewrite (bind_ok _ _ tt cli_off tt) by (unfold map_err; now rewrite Hcli).
  destruct Hch as (L72 & Hch1 & Hch2).
  destruct (read_cli_header p data cli_off Hs ltac:(lia)) as (hdr & Eh & x & Ex & Hx).
  rewrite (bind_ok _ _ _ _ _ Eh), (bind_ok _ _ _ _ _ Ex).
  destruct x as [d|]; [|lia]. destruct Hx as [_ Hx].
  unfold bind at 1, ok_or, ret at 1.
  rewrite (proj1 (Hx md_rva (len md) token rr rz) (conj L72 (conj Hch1 Hch2))).
  cbn [ch_metadata cli_of rs_rva rs_size].
  apply (maps_to_run p _ _ _ tt) in Hmd; [|auto].
  rewrite (bind_ok _ _ tt md_off tt) by (unfold map_err; now rewrite Hmd).
  rewrite (bind_ok _ _ _ _ _ (slice_range_at data md_off md Hb)).
  assert (len md < 2 ^ 32) as Lmd.
  { cbn [seq_at] in Hch1. destruct Hch1 as (_ & (bs & _ & Lb & E) & _). rewrite E.
    pose proof (le_dec_bound bs) as B. rewrite Lb in B. exact B. }
  assert (slice_ok md) as Hsm.
  { apply (slice_ok_shorter (d := data)); [|auto]. apply bytes_at_bound in Hb. lia. }
  destruct (root_run p md es Hsm Hroot) as [k Er].
  rewrite (bind_ok _ _ tt (fold_left collect1 es no_streams) tt)
    by (unfold on_reader, new_reader; now rewrite Er).
  assert (forall k0 c, designates md es k0 c -> exists e, hd k0 (fold_left collect1 es no_streams) = Some (entry_header e) /\
            stream_slice p md (entry_header e) tt = Ok c tt) as Hget.
  { intros k0 c (e & Hi & Hk & Hbb & Hlc). exists e. split; [now apply hd_fold_one|].
    now apply stream_slice_at. }
  destruct (Hget _ _ Dstr) as (e1 & E1 & S1). cbn [hd] in E1. rewrite E1.
  unfold unwrap at 1. unfold bind at 1, ret at 1. rewrite (bind_ok _ _ _ _ _ S1).
  assert (match hd_us (fold_left collect1 es no_streams) with
          | Some h => stream_slice p md h | None => ret [] end tt = Ok us tt) as Eus.
  { destruct Dus as [Dus|[-> Hno]].
    - destruct (Hget _ _ Dus) as (e2 & E2 & S2). cbn [hd] in E2. now rewrite E2.
    - pose proof (hd_fold_none SUserStrings es no_streams Hno) as E2. cbn [hd] in E2. now rewrite E2. }
  rewrite (bind_ok _ _ _ _ _ Eus).
  destruct (Hget _ _ Dblob) as (e3 & E3 & S3). cbn [hd] in E3. rewrite E3.
  unfold unwrap at 1. unfold bind at 1, ret at 1. rewrite (bind_ok _ _ _ _ _ S3).
  destruct (Hget _ _ Dguid) as (e4 & E4 & S4). cbn [hd] in E4. rewrite E4.
  unfold unwrap at 1. unfold bind at 1, ret at 1. rewrite (bind_ok _ _ _ _ _ S4).
  destruct (Hget _ _ Dtab) as (e5 & E5 & S5). cbn [hd] in E5. rewrite E5.
  unfold unwrap at 1. unfold bind at 1, ret at 1. rewrite (bind_ok _ _ _ _ _ S5).
  rewrite (bind_ok _ _ tt T tt) by (unfold on_reader, new_reader; now rewrite Ht).
  reflexivity.
Qed.

Lemma stream_slice_fine p md e : len md < 2 ^ 32 -> se_offset e + se_size e <= len md ->
  exists c, stream_slice p md (entry_header e) tt = Ok c tt /\ len c <= len md.
Proof.
  intros Hl L. destruct (sub_list_bytes_at md (se_offset e) (se_size e) L) as [B1 B2].
  exists (sub_list (se_offset e) (se_size e) md). split; [now apply stream_slice_at|lia].
Qed.

Lemma read_metadata_fine p data : slice_ok data ->
  (forall pi, pe_layout data pi -> image_inside data pi) -> fine (read_metadata p data tt).
Proof.
  intros Hs Hin. unfold read_metadata.
  pose proof (parse_pe_result p data Hs) as Hp. unfold parse_pe in Hp.
  unfold bind at 1, on_reader at 1.
  destruct (parse_pe_m p (new_reader data)) as [pi r|e r| | |] eqn:Epe; try exact I; try contradiction.
  destruct Hp as [_ Hp]. apply pe_result_layout in Hp. destruct (Hin _ Hp) as (Hsec & Hraw & Hrest).
  unfold bind at 1, ok_or at 1.
  destruct (nth_error (pi_data_directories pi) 14) as [dir|] eqn:Ed; [|exact I].
  unfold ret at 1. unfold bind at 1, map_err at 1.
  destruct (resolve_fine p pi (rs_rva dir) tt Hsec) as [[cli_off Ec]|[e Ec]]; rewrite Ec; [|exact I].
  assert (maps_to pi (rs_rva dir) cli_off) as Mc by (eapply maps_to_run; eauto).
  destruct (read_cli_header p data cli_off Hs (maps_to_inside _ _ _ _ Hraw Mc)) as (hdr & Eh & x & Ex & Hx).
  rewrite (bind_ok _ _ _ _ _ Eh), (bind_ok _ _ _ _ _ Ex).
  destruct x as [d|]; [|exact I]. destruct Hx as [L72 Hx].
  unfold bind at 1, ok_or, ret at 1. cbv zeta.
  destruct (dec_cli_header d) as [[mr mz] tok [rr rz]] eqn:Edec.
  pose proof (proj2 (Hx mr mz tok rr rz) eq_refl) as Hch. clear Hx.
  cbn [ch_metadata rs_rva rs_size].
  unfold bind at 1, map_err at 1.
  destruct (resolve_fine p pi mr tt Hsec) as [[md_off Em]|[e Em]]; rewrite Em; [|exact I].
  assert (maps_to pi mr md_off) as Mm by (eapply maps_to_run; eauto).
  destruct (Hrest _ _ _ _ _ _ _ _ eq_refl Mc Hch Mm) as [Lmd Hroot].
  destruct (sub_list_bytes_at data md_off mz Lmd) as [B1 B2].
  set (md := sub_list md_off mz data) in *.
  rewrite <- B2. rewrite (bind_ok _ _ _ _ _ (slice_range_at data md_off md B1)).
  assert (len md < 2 ^ 32) as L32.
  { destruct Hch as (_ & Hch1 & _). cbn [seq_at] in Hch1. destruct Hch1 as (_ & (bs & _ & Lb & E) & _).
    rewrite B2, E. pose proof (le_dec_bound bs) as B. rewrite Lb in B. exact B. }
  assert (slice_ok md) as Hsm.
  { apply (slice_ok_shorter (d := data)); [|auto]. lia. }
  pose proof (root_fine p md Hsm) as Hrf.
  unfold bind at 1, on_reader at 1, new_reader at 1.
  destruct (read_root p (mkReader md 0)) as [hs r1|e r1| | |] eqn:Er; try exact I; try contradiction.
  destruct (root_inv p md hs r1 Hsm Er) as (es & Hra & ->).
  destruct (Hroot md es B1 B2 Hra) as [Hall Hrng]. rewrite <- B2 in Hrng.
  assert (forall k, k <> SUserStrings -> exists h c, hd k (fold_left collect1 es no_streams) = Some h /\
            stream_slice p md h tt = Ok c tt /\ len c <= len md) as Hget.
  { intros k Hk. destruct (hd_fold_some k es no_streams (Hall k Hk)) as (e & Hi & _ & E).
    destruct (stream_slice_fine p md e L32 (Hrng e Hi)) as (c & Hc & Lc). eauto. }
  destruct (Hget SStrings ltac:(discriminate)) as (h1 & c1 & E1 & S1 & _). cbn [hd] in E1. rewrite E1.
  unfold unwrap at 1. unfold bind at 1, ret at 1. rewrite (bind_ok _ _ _ _ _ S1).
  assert (exists us, match hd_us (fold_left collect1 es no_streams) with
          | Some h => stream_slice p md h | None => ret [] end tt = Ok us tt) as [us Eus].
  { destruct (existsb (fun x => if kind_eq_dec (se_kind x) SUserStrings then true else false) es) eqn:Exx.
    - apply existsb_exists in Exx. destruct Exx as (y & Hy & Ek).
      destruct (kind_eq_dec (se_kind y) SUserStrings) as [Ek'|]; [|discriminate].
      destruct (hd_fold_some SUserStrings es no_streams) as (e & Hi & _ & E); [eauto|].
      cbn [hd] in E. rewrite E. destruct (stream_slice_fine p md e L32 (Hrng e Hi)) as (c & Hc & _). eauto.
    - pose proof (hd_fold_none SUserStrings es no_streams) as E2. cbn [hd] in E2. rewrite E2.
      + eexists. reflexivity.
      + intros y Hy Ek. assert (existsb (fun x => if kind_eq_dec (se_kind x) SUserStrings then true else false) es = true).
        { apply existsb_exists. exists y. split; [exact Hy|]. destruct (kind_eq_dec (se_kind y) SUserStrings); [reflexivity|contradiction]. }
        congruence. }
  rewrite (bind_ok _ _ _ _ _ Eus).
  destruct (Hget SBlob ltac:(discriminate)) as (h3 & c3 & E3 & S3 & _). cbn [hd] in E3. rewrite E3.
  unfold unwrap at 1. unfold bind at 1, ret at 1. rewrite (bind_ok _ _ _ _ _ S3).
  destruct (Hget SGuid ltac:(discriminate)) as (h4 & c4 & E4 & S4 & _). cbn [hd] in E4. rewrite E4.
  unfold unwrap at 1. unfold bind at 1, ret at 1. rewrite (bind_ok _ _ _ _ _ S4).
  destruct (Hget STables ltac:(discriminate)) as (h5 & c5 & E5 & S5 & L5). cbn [hd] in E5. rewrite E5.
  unfold unwrap at 1. unfold bind at 1, ret at 1. rewrite (bind_ok _ _ _ _ _ S5).
  unfold bind at 1, on_reader at 1, new_reader at 1.
  pose proof (calm_stream p (mkReader c5 0) (slice_ok_shorter (d' := c5) L5 Hsm) (N.le_0_l _)) as Ct.
  destruct (read_table_stream p (mkReader c5 0)); try exact I; contradiction.
Qed.

(** ** The specification determines what it describes. *)
Lemma nul_terminated_unique data off a b : ~ In x00 a -> ~ In x00 b ->
  bytes_at data off (a ++ [x00]) -> bytes_at data off (b ++ [x00]) -> a = b.
Proof.
  intros Ha Hb (pre & post & E1 & L1) (pre' & post' & E2 & L2).
  assert (pre = pre' /\ (a ++ [x00]) ++ post = (b ++ [x00]) ++ post') as [_ E].
  { apply app_len_inj; [congruence|]. congruence. }
  clear E1 E2 L1 L2. rewrite <- !app_assoc in E. cbn [app] in E.
  revert b Hb E. induction a as [|x a IH]; intros [|y b] Hb E; cbn [app] in E; [reflexivity| | |].
  - injection E as E _. exfalso. apply Hb. now left.
  - injection E as E _. exfalso. apply Ha. now left.
  - injection E as -> E. f_equal. apply IH; [|intro; apply Hb; now right|exact E].
    intro. apply Ha. now right.
Qed.

Lemma stream_text_inj a b : stream_text a = stream_text b -> a = b.
Proof. destruct a, b; cbn; congruence. Qed.

Lemma headers_at_unique md : forall l1 l2 off, List.length l1 = List.length l2 ->
  headers_at md off l1 -> headers_at md off l2 -> l1 = l2.
Proof.
  induction l1 as [|e1 l1 IH]; intros [|e2 l2] off El H1 H2; try discriminate; [reflexivity|].
  cbn [headers_at seq_at] in *.
  destruct H1 as ((A1 & A2 & _) & A3 & A4). destruct H2 as ((B1 & B2 & _) & B3 & B4).
  assert (se_kind e1 = se_kind e2) as Ek.
  { apply stream_text_inj. eapply nul_terminated_unique; eauto using stream_text_nonul. }
  rewrite Ek in A4. f_equal.
  - destruct e1, e2; cbn in *. f_equal; [exact Ek| |]; eapply u_at_unique; eauto.
  - eapply IH; [injection El; auto|exact A4|exact B4].
Qed.

Lemma root_at_unique md l1 l2 : root_at md l1 -> root_at md l2 -> l1 = l2.
Proof.
  intros (t1 & p1 & _ & A1 & _ & _ & _ & _ & A2 & A3) (t2 & p2 & _ & B1 & _ & _ & _ & _ & B2 & B3).
  pose proof (u_at_unique _ _ _ _ _ A1 B1) as E. rewrite E in *.
  pose proof (u_at_unique _ _ _ _ _ A2 B2) as E2.
  eapply headers_at_unique; eauto. unfold len in E2. lia.
Qed.

Lemma maps_to_unique pi rva a b : sections_ok (pi_sections pi) ->
  maps_to pi rva a -> maps_to pi rva b -> a = b.
Proof.
  intros Hs Ha Hb. apply (maps_to_run Debug pi rva a tt) in Ha; [|auto].
  apply (maps_to_run Debug pi rva b tt) in Hb; [|auto]. congruence.
Qed.

(** ** Image data and resources. *)
Lemma get_pe_data_run p m rva off bs : sections_ok (pi_sections (m_pe_info m)) ->
  maps_to (m_pe_info m) rva off -> bytes_at (m_pe_data m) off bs ->
  get_pe_data p m {| rs_rva := rva; rs_size := len bs |} tt = Ok bs tt.
Proof.
  intros Hs Hm Hb. unfold get_pe_data. cbn [rs_rva rs_size].
  rewrite (bind_ok _ _ tt off tt) by (now apply maps_to_run).
  now apply slice_range_at.
Qed.

Lemma slice_from_app (pre d : list byte) : slice_from (pre ++ d) (len pre) tt = Ok d tt.
Proof.
  unfold slice_from. destruct (N.ltb_spec (len (pre ++ d)) (len pre)); [slen; lia|].
  now rewrite skipn_app_len.
Qed.

Lemma get_resource_run p m off res o content :
  sections_ok (pi_sections (m_pe_info m)) ->
  maps_to (m_pe_info m) (rs_rva (ch_resources (m_cli_header m))) off ->
  bytes_at (m_pe_data m) off res -> len res = rs_size (ch_resources (m_cli_header m)) ->
  u_at res o 4 (len content) -> bytes_at res (o + 4) content ->
  get_resource_data p m o tt = Ok content tt.
Proof.
  intros Hs Hm Hb Hl Hu Hc. unfold get_resource_data.
  destruct (ch_resources (m_cli_header m)) as [rr rz]. cbn [rs_rva rs_size] in *. subst rz.
  rewrite (bind_ok _ _ _ _ _ (get_pe_data_run p m rr off res Hs Hm Hb)).
  destruct Hu as (lb & (pre & post & -> & <-) & Ll & El).
  rewrite (bind_ok _ _ _ _ _ (slice_from_app _ _)).
  destruct (N.ltb_spec (len (lb ++ post)) 4); [slen; lia|].
  unfold bind, ret. rewrite <- Ll.
  replace (sub_list 0 (len lb) (lb ++ post)) with lb
    by (unfold sub_list; rewrite N2Nat.inj_0; cbn [skipn]; now rewrite firstn_app_len).
  rewrite <- El.
  apply slice_range_at.
  destruct Hc as (pre2 & post2 & E & L2).
  assert (pre2 = pre ++ lb /\ content ++ post2 = post) as [-> <-].
  { apply app_len_inj; [slen; lia|]. rewrite <- E. now rewrite <- app_assoc. }
  exists lb, post2. split; reflexivity.
Qed.

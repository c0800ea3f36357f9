(** Reading method bodies where they lie in memory: C87. *)
From Coq Require Import NArith String List Bool Lia.
From Coq.Strings Require Import Byte.
From Verif Require Import Base BaseFacts BinaryReader ParseSpec ReaderFacts Attributes Tables TablesProofs Blob Metadata
  Runtime Loader SpecBytes SpecUtf SpecBlob BlobProofs Pe SpecPe PeProofs SpecMetadata MetadataProofs SpecRuntime RuntimeInv
  SpecHistory HistoryProofs SpecBody BodyProofs DemoImages DemoStates DemoFacts PropsBody.
From Verif Require Import Aligned AlignedBody SpecImageAlign AlignedFacts PropsImageAlign.
Import ListNotations.
Open Scope N_scope.

(** ** Nothing else is undefined *)

Lemma guards_with {S A} (m' m : M reader A) r : guards m' m -> guards (with_reader (S := S) r m') (with_reader r m).
Proof. intros H s. unfold with_reader. destruct (H r) as [->| ->]; auto. Qed.
Ltac gb := repeat (cbv zeta; first
  [ (apply guards_with; apply guards_rd) | (simple apply guards_bind; [|intro]) | apply guards_refl
  | (match goal with |- guards (let (_, _) := ?x in _) _ => destruct x end) ]).

Lemma guards_clauses base p md w1 w2 n : forall r, guards (read_clauses_at base p md w1 w2 n r) (read_clauses p md w1 w2 n r).
Proof. induction n as [|n IH]; intro r; cbn [read_clauses_at read_clauses]; [apply guards_refl|]. gb. apply IH. Qed.
Lemma guards_section base p md r : guards (read_section_at base p md r) (read_section p md r).
Proof.
  unfold read_section_at, read_section. gb. destruct (negb _); [apply guards_refl|]. gb.
  destruct (has _ 64); gb; apply guards_clauses.
Qed.

(** A body at any address is read as Loader.v says or the reading is undefined. *)
Theorem C87_body_nothing_else : forall base p md rva s,
  load_body_at base p md rva s = load_body p md rva s \/ exists why, load_body_at base p md rva s = Ub why.
Proof.
  intros base p md rva s.
  assert (G : guards (load_body_at base p md rva) (load_body p md rva)).
  { unfold load_body_at, load_body. gb. destruct (N.land n 3) as [|[[?|?|]|[?|?|]|]]; gb.
    destruct (has _ 8); [apply guards_section|apply guards_refl]. }
  destruct (G s) as [E|E]; [left; exact E|right; exists misaligned; exact E].
Qed.

(** ** Where the parts of a body are *)

Lemma rd_here {S} base p n e bs pre rest (s : S) : len bs = n -> slice_ok (pre ++ bs ++ rest) ->
  with_reader (here pre (bs ++ rest)) (Aligned.rd_at base p n e) s =
    if (base + len pre) mod n =? 0 then Ok (le_dec bs, here (pre ++ bs) rest) s else Ub misaligned.
Proof.
  intros L Hs. pose proof (wr _ _ _ pre rest s (parses_rd_bytes p n e bs L) Hs) as X. unfold with_reader in *.
  destruct (rd p n e (here pre (bs ++ rest))) as [v r| | | |] eqn:R; try discriminate X. injection X as Ev Er. subst v r.
  unfold rd in R. apply bind_inv_ok in R as ([d|] & r & E & R); [|discriminate R].
  unfold Aligned.rd_at, read_at, bind. rewrite (typed_some _ _ _ _ _ _ E). cbn [here rpos].
  destruct (_ =? 0); [rewrite R; reflexivity|reflexivity].
Qed.
Lemma rd_bind {S B} base p n e bs pre rest (s : S) (k : N * reader -> M S B) : len bs = n -> slice_ok (pre ++ bs ++ rest) ->
  bind (with_reader (here pre (bs ++ rest)) (Aligned.rd_at base p n e)) k s =
    if (base + len pre) mod n =? 0 then k (le_dec bs, here (pre ++ bs) rest) s else Ub misaligned.
Proof. intros L Hs. unfold bind. rewrite (rd_here base p n e bs) by assumption. destruct (_ =? 0); reflexivity. Qed.

Lemma skip_here {S} p n bs pre rest (s : S) : len bs = n -> slice_ok (pre ++ bs ++ rest) ->
  exists b, with_reader (here pre (bs ++ rest)) (advance p n) s = Ok (b, here (pre ++ bs) rest) s.
Proof.
  intros L Hs.
  assert (Pa : parses (advance p n ;;; ret tt) bs tt).
  { rewrite <- (app_nil_r bs). apply parses_skip; [exact L|apply parses_ret]. }
  pose proof (wr (advance p n ;;; ret tt) _ _ _ _ s Pa Hs) as X. unfold with_reader, bind in *.
  destruct (advance p n _) as [a r| | | |]; cbn [ret] in X; try discriminate X. unfold ret in X.
  injection X as X. exists a. now rewrite X.
Qed.

Lemma body_slice p md rva off bs (s : vm) : sections_ok (pi_sections (m_pe_info md)) ->
  maps_to (m_pe_info md) rva off -> bytes_at (m_pe_data md) off bs ->
  exists post, map_err (lift (resolve_rva p (m_pe_info md) rva)) "Cannot find method body" s = Ok off s /\
    lift (slice_from (m_pe_data md) off) s = Ok (bs ++ post) s /\ len (bs ++ post) <= len (m_pe_data md).
Proof.
  intros Hs Hm (pre & post & E & <-). exists post.
  split; [|split].
  - unfold map_err, lift. rewrite (proj2 (maps_to_run p _ rva (len pre) tt Hs) Hm). reflexivity.
  - unfold lift, slice_from. rewrite E. replace (len (pre ++ bs ++ post) <? len pre) with false.
    + unfold ret. rewrite skipn_app_len. reflexivity.
    + symmetry. apply N.ltb_ge. slen. lia.
  - rewrite E. slen. lia.
Qed.

Lemma mod4_2 a : a mod 4 = 0 -> (a + 2) mod 2 = 0.
Proof. intro H. rewrite (N.div_mod a 4), H by discriminate. replace (4 * (a / 4) + 0 + 2) with (0 + (2 * (a / 4) + 1) * 2) by lia. rewrite N.mod_add; [reflexivity|discriminate]. Qed.
Lemma mod4_add a k : (a + k * 4) mod 4 = a mod 4.
Proof. rewrite N.mod_add; [reflexivity|discriminate]. Qed.

(** What follows the header, in both readings. *)
Lemma fat_both base p md rva off init (more : bool) ms tok code extra s :
  sections_ok (pi_sections (m_pe_info md)) -> slice_ok (m_pe_data md) ->
  ms < 2 ^ 16 -> tok < 2 ^ 32 -> len code < 2 ^ 32 ->
  maps_to (m_pe_info md) rva off -> bytes_at (m_pe_data md) off (enc_fat init more ms tok code ++ extra) ->
  exists post, slice_ok (enc_fat init more ms tok code ++ extra ++ post) /\
    let rest sec := locals <- load_locals p md tok ;;
                    clauses <- (if more then sec (here (enc_fat init more ms tok code) (extra ++ post)) else ret []) ;;
                    ret (mkBody code ms locals init clauses) in
    load_body p md rva s = rest (read_section p md) s /\
    load_body_at base p md rva s =
      if (base + off) mod 4 =? 0 then rest (read_section_at (base + off) p md) s else Ub misaligned.
Proof.
  intros Hs Hd Hm Ht Hc Hr Hi.
  destruct (body_slice p md rva off _ s Hs Hr Hi) as (post & E1 & E2 & El). exists post.
  assert (Ho : slice_ok (enc_fat init more ms tok code ++ extra ++ post)).
  { unfold slice_ok in *. rewrite <- app_assoc in El. lia. }
  split; [exact Ho|]. cbv zeta.
  set (b0 := nb (3 + flag more 8 + flag init 16)) in *.
  assert (Hf : enc_fat init more ms tok code = [b0] ++ [x30] ++ le_enc 2 ms ++ le_enc 4 (len code) ++ le_enc 4 tok ++ code) by reflexivity.
  assert (Hb0 : N.land (le_dec [b0]) 3 = 3 /\ has (le_dec [b0]) 8 = more /\ has (le_dec [b0]) 16 = init)
    by (unfold b0; destruct more, init; repeat split; reflexivity).
  destruct Hb0 as (B1 & B2 & B3). rewrite Hf in *. clear Hf. clearbody b0.
  assert (D1 : le_dec (le_enc 2 ms) = ms) by (apply le_dec_enc; exact Hm).
  assert (D2 : le_dec (le_enc 4 (len code)) = len code) by (apply le_dec_enc; exact Hc).
  assert (D3 : le_dec (le_enc 4 tok) = tok) by (apply le_dec_enc; exact Ht).
  unfold load_body_at, load_body. cbv zeta.
  unfold bind at 1. rewrite E1. unfold bind at 1. rewrite E2.
  unfold new_reader. rewrite <- !app_assoc in *.
  change (mkReader ([b0] ++ ?x) 0) with (here [] ([b0] ++ x)).
  change ([b0] ++ ?x) with ([] ++ [b0] ++ x) in Ho.
  split.
  - rewrite (wr_bind _ _ _ _ _ _ _ (parses_rd_bytes p 1 bad_body [b0] eq_refl) Ho). apply slice_shift in Ho.
    rewrite B1, B2, B3.
    destruct (skip_here p 1 [x30] _ _ s eq_refl Ho) as [bb Ea]. unfold bind at 1. rewrite Ea. cbv iota beta. apply slice_shift in Ho.
    rewrite (wr_bind _ _ _ _ _ _ _ (parses_rd p 2 bad_body _ (Hm : ms < 256 ^ 2)) Ho). apply slice_shift in Ho.
    rewrite (wr_bind _ _ _ _ _ _ _ (parses_rd p 4 bad_body _ (Hc : len code < 256 ^ 4)) Ho). apply slice_shift in Ho.
    rewrite (wr_bind _ _ _ _ _ _ _ (parses_rd p 4 bad_body _ (Ht : tok < 256 ^ 4)) Ho). apply slice_shift in Ho.
    unfold bind at 1. symmetry. unfold bind at 1. destruct (load_locals p md tok s) as [ls s1| | | |]; try reflexivity.
    rewrite (wr_bind _ _ _ _ _ _ _ (parses_code p code) Ho). rewrite <- !app_assoc. reflexivity.
  - unfold bind at 1. rewrite E1. unfold bind at 1. rewrite E2.
    change (mkReader ([b0] ++ ?x) 0) with (here [] ([b0] ++ x)).
    rewrite (rd_bind _ p 1 bad_body [b0]) by (exact Ho || reflexivity). apply slice_shift in Ho.
    rewrite N.mod_1_r. cbn [N.eqb]. rewrite B1, B2, B3.
    destruct (skip_here p 1 [x30] _ _ s eq_refl Ho) as [bb Ea]. unfold bind at 1. rewrite Ea. cbv iota beta. apply slice_shift in Ho.
    rewrite (rd_bind _ p 2 bad_body) by (exact Ho || reflexivity). apply slice_shift in Ho.
    change (len (([] ++ [b0]) ++ [x30])) with 2.
    destruct (N.eqb_spec ((base + off) mod 4) 0) as [A|A].
    + rewrite (mod4_2 _ A). cbn [N.eqb].
      rewrite (rd_bind _ p 4 bad_body) by (exact Ho || reflexivity). apply slice_shift in Ho.
      change (len ((([] ++ [b0]) ++ [x30]) ++ le_enc 2 ms)) with (1 * 4). rewrite mod4_add, A. cbn [N.eqb].
      rewrite (rd_bind _ p 4 bad_body) by (exact Ho || reflexivity). apply slice_shift in Ho.
      change (len (((([] ++ [b0]) ++ [x30]) ++ le_enc 2 ms) ++ le_enc 4 (len code))) with (2 * 4). rewrite mod4_add, A. cbn [N.eqb].
      rewrite D1, D2, D3.
      unfold bind at 1. symmetry. unfold bind at 1. destruct (load_locals p md tok s) as [ls s1| | | |]; try reflexivity.
      rewrite (wr_bind _ _ _ _ _ _ _ (parses_code p code) Ho). rewrite <- !app_assoc. reflexivity.
    + destruct ((base + off + 2) mod 2 =? 0); [|reflexivity].
      rewrite (rd_bind _ p 4 bad_body) by (exact Ho || reflexivity).
      change (len ((([] ++ [b0]) ++ [x30]) ++ le_enc 2 ms)) with (1 * 4). rewrite mod4_add.
      destruct (N.eqb_spec ((base + off) mod 4) 0); [contradiction|reflexivity].
Qed.

(** ** Exception clauses *)

Lemma rd_aligned base p n e r : (base + rpos r) mod n = 0 -> Aligned.rd_at base p n e r = rd p n e r.
Proof.
  intro A. unfold Aligned.rd_at, rd, read_at, bind, typed. destruct (read p n r) as [[d|] r'| | | |]; try reflexivity.
  rewrite A. reflexivity.
Qed.
Lemma rd4_next p e r v r' : slice_ok (rdata r) -> rpos r <= len (rdata r) -> rd p 4 e r = Ok v r' ->
  slice_ok (rdata r') /\ rpos r' <= len (rdata r') /\ rpos r' = rpos r + 1 * 4.
Proof.
  intros Hs Hp E. unfold rd in E. apply bind_inv_ok in E as ([d|] & r1 & E & R); [|discriminate R].
  injection R as _ <-. apply read_inv in E as (L & -> & _); [|exact Hs|unfold slice_ok in Hs; rewrite pow63 in Hs; rewrite pow64; lia].
  cbn [rdata rpos]. repeat split; [exact Hs|exact L].
Qed.

Definition steady (base : N) (r : reader) : Prop :=
  slice_ok (rdata r) /\ rpos r <= len (rdata r) /\ (base + rpos r) mod 4 = 0.
Lemma rd4_bind {B} base p e r (s : vm) (k' k : N * reader -> M vm B) : steady base r ->
  (forall v r', steady base r' -> k' (v, r') s = k (v, r') s) ->
  bind (with_reader r (Aligned.rd_at base p 4 e)) k' s = bind (with_reader r (rd p 4 e)) k s.
Proof.
  intros (Hs & Hp & A) H. unfold bind, with_reader. rewrite (rd_aligned base p 4 e r A).
  destruct (rd p 4 e r) as [v r'| | | |] eqn:E; try reflexivity. apply H.
  destruct (rd4_next p e r v r' Hs Hp E) as (S1 & S2 & S3). split; [exact S1|]. split; [exact S2|].
  rewrite S3, N.add_assoc, mod4_add. exact A.
Qed.
Lemma fat_clauses_same base p md n : forall r s, steady base r ->
  read_clauses_at base p md 4 4 n r s = read_clauses p md 4 4 n r s.
Proof.
  induction n as [|n IH]; intros r s St; cbn [read_clauses_at read_clauses]; [reflexivity|].
  apply rd4_bind; [exact St|clear r St; intros v1 r St]. cbv iota beta.
  unfold bind at 1. symmetry. unfold bind at 1. symmetry. destruct (ok_or _ _ s) as [k s1| | | |] eqn:Ek; try reflexivity.
  apply rd4_bind; [exact St|clear r St; intros v2 r St].
  apply rd4_bind; [exact St|clear r St; intros v3 r St].
  apply rd4_bind; [exact St|clear r St; intros v4 r St].
  apply rd4_bind; [exact St|clear r St; intros v5 r St].
  apply rd4_bind; [exact St|clear r St; intros v6 r St]. cbv iota beta.
  unfold bind at 1. symmetry. unfold bind at 1. symmetry. destruct (new_clause _ _ _ _ _ _ _ _ s1) as [c s2| | | |]; try reflexivity.
  unfold bind. now rewrite (IH r s2 St).
Qed.

Lemma odd_apart a : a mod 2 = 0 -> (a + 5) mod 2 <> 0.
Proof. intro H. rewrite (N.div_mod a 2), H by discriminate. replace (2 * (a / 2) + 0 + 5) with (1 + (a / 2 + 2) * 2) by lia. rewrite N.mod_add by discriminate. discriminate. Qed.

Lemma small_clause_ub base p md e n pre rest s : slice_ok (pre ++ enc_small_clause e ++ rest) ->
  read_clauses_at base p md 2 1 (S n) (here pre (enc_small_clause e ++ rest)) s = Ub misaligned.
Proof.
  intro Hs. unfold enc_small_clause in *. rewrite <- !app_assoc in *. cbn [read_clauses_at].
  rewrite (rd_bind _ p 2 bad_body) by (exact Hs || reflexivity). apply slice_shift in Hs.
  destruct (N.eqb_spec ((base + len pre) mod 2) 0) as [A|A]; [|reflexivity].
  assert (Ek : clause_kind_of (le_dec (le_enc 2 (eh_code (eh_is e)))) = Some (api_kind (eh_is e))) by (destruct (eh_is e); reflexivity).
  rewrite Ek. unfold bind at 1, ok_or, ret at 1.
  rewrite (rd_bind _ p 2 bad_body) by (exact Hs || reflexivity). apply slice_shift in Hs.
  destruct (_ =? 0); [|reflexivity].
  rewrite (rd_bind _ p 1 bad_body) by (exact Hs || reflexivity). apply slice_shift in Hs.
  rewrite N.mod_1_r. cbn [N.eqb].
  rewrite (rd_bind _ p 2 bad_body) by (exact Hs || reflexivity).
  set (l1 := le_enc 2 (eh_code (eh_is e))). set (l2 := le_enc 2 (eh_try_offset e)). set (l3 := le_enc 1 (eh_try_length e)).
  replace (base + len (((pre ++ l1) ++ l2) ++ l3)) with (base + len pre + 5).
  2:{ slen. change (len l1) with 2. change (len l2) with 2. change (len l3) with 1. lia. }
  destruct (N.eqb_spec ((base + len pre + 5) mod 2) 0) as [B|B]; [destruct (odd_apart _ A B)|reflexivity].
Qed.

Lemma small_section_ub base p md more e es f pre rest s :
  12 * len (e :: es) + 4 < 2 ^ 8 -> fill (len pre) f -> slice_ok (pre ++ f ++ enc_small_section more (e :: es) ++ rest) ->
  read_section_at base p md (here pre (f ++ enc_small_section more (e :: es) ++ rest)) s = Ub misaligned.
Proof.
  intros Hl Hf Hs. unfold read_section_at. unfold bind at 1.
  rewrite align_run; [|exact Hs|exact Hf|destruct Hf; lia]. apply slice_shift in Hs. cbv iota beta.
  set (pre' := pre ++ f) in *. clearbody pre'. clear Hf pre f.
  unfold enc_small_section in *. set (cl := e :: es) in *.
  change ([nb (1 + flag more 0x80); nb (12 * len cl + 4); x00; x00] ++ concat (map enc_small_clause cl))
    with ([nb (1 + flag more 0x80)] ++ [nb (12 * len cl + 4)] ++ [x00; x00] ++ concat (map enc_small_clause cl)) in *.
  rewrite <- !app_assoc in *.
  rewrite (rd_bind _ p 1 bad_body) by (exact Hs || reflexivity). apply slice_shift in Hs. rewrite N.mod_1_r. cbn [N.eqb].
  assert (E1 : negb (has (le_dec [nb (1 + flag more 128)]) 1) = false /\ has (le_dec [nb (1 + flag more 128)]) 64 = false)
    by (destruct more; split; reflexivity).
  destruct E1 as [-> E1].
  rewrite (rd_bind _ p 1 bad_body) by (exact Hs || reflexivity). apply slice_shift in Hs. rewrite N.mod_1_r. cbn [N.eqb].
  rewrite E1. cbn [le_dec]. rewrite N.mul_0_r, N.add_0_r, bn_nb_small by lia.
  destruct (skip_here p 2 [x00; x00] _ _ s eq_refl Hs) as [b Ea]. unfold bind at 1. rewrite Ea. cbv iota beta. apply slice_shift in Hs.
  replace (N.to_nat ((12 * len cl + 4) / 12)) with (S (List.length es)).
  2:{ replace ((12 * len cl + 4) / 12) with (len cl); [unfold cl, len; cbn [List.length]; lia|].
      symmetry. rewrite N.add_comm, N.mul_comm, N.div_add by discriminate. reflexivity. }
  unfold cl in *. cbn [map concat] in *. clear Ea. rewrite <- (app_assoc (enc_small_clause e)) in *.
  apply small_clause_ub. exact Hs.
Qed.

Lemma fat_section_same base p md more es f pre rest s : base mod 4 = 0 ->
  fill (len pre) f -> slice_ok (pre ++ f ++ enc_fat_section more es ++ rest) ->
  read_section_at base p md (here pre (f ++ enc_fat_section more es ++ rest)) s =
  read_section p md (here pre (f ++ enc_fat_section more es ++ rest)) s.
Proof.
  intros Ab Hf Hs. unfold read_section_at, read_section. unfold bind at 1. symmetry. unfold bind at 1. symmetry.
  rewrite align_run; [|exact Hs|exact Hf|destruct Hf; lia]. apply slice_shift in Hs. cbv iota beta.
  assert (A : len (pre ++ f) mod 4 = 0) by (destruct Hf as [_ F]; rewrite len_app; exact F).
  set (pre' := pre ++ f) in *. clearbody pre'. clear Hf pre f.
  unfold enc_fat_section in *. change (le_enc 3 (24 * len es + 4)) with ([nb (24 * len es + 4)] ++ le_enc 2 ((24 * len es + 4) / 256)) in *.
  rewrite <- !app_assoc in *.
  rewrite (rd_bind _ p 1 bad_body) by (exact Hs || reflexivity).
  rewrite (wr_bind _ _ _ _ _ _ _ (parses_rd_bytes p 1 bad_body [nb (0x41 + flag more 0x80)] eq_refl) Hs).
  apply slice_shift in Hs. rewrite N.mod_1_r. cbn [N.eqb].
  assert (E1 : negb (has (le_dec [nb (0x41 + flag more 128)]) 1) = false /\ has (le_dec [nb (0x41 + flag more 128)]) 64 = true)
    by (destruct more; split; reflexivity).
  destruct E1 as [-> E1].
  rewrite (rd_bind _ p 1 bad_body) by (exact Hs || reflexivity).
  rewrite (wr_bind _ _ _ _ _ _ _ (parses_rd_bytes p 1 bad_body [nb (24 * len es + 4)] eq_refl) Hs).
  apply slice_shift in Hs. rewrite N.mod_1_r. cbn [N.eqb]. rewrite E1.
  assert (A4 : (base + len pre') mod 4 = 0) by (rewrite N.add_mod, Ab, A by discriminate; reflexivity).
  rewrite (rd_bind _ p 2 bad_body) by (exact Hs || reflexivity).
  rewrite (wr_bind _ _ _ _ _ _ _ (parses_rd_bytes p 2 bad_body (le_enc 2 ((24 * len es + 4) / 256)) eq_refl) Hs).
  apply slice_shift in Hs.
  set (h1 := [nb (65 + flag more 128)]) in *. set (h2 := [nb (24 * len es + 4)]) in *. set (h3 := le_enc 2 _) in *.
  replace (base + len ((pre' ++ h1) ++ h2)) with (base + len pre' + 2) by (slen; change (len h1) with 1; change (len h2) with 1; lia).
  rewrite (mod4_2 _ A4). cbn [N.eqb].
  apply fat_clauses_same. split; [exact Hs|]. unfold here. cbn [rdata rpos]. split; [slen; lia|].
  replace (base + len (((pre' ++ h1) ++ h2) ++ h3)) with (base + len pre' + 1 * 4).
  2:{ slen. change (len h1) with 1; change (len h2) with 1; change (len h3) with 2. lia. }
  rewrite mod4_add. exact A4.
Qed.

(** ** C87 *)

(** A tiny body consists of bytes and is read at every address. *)
Theorem C87_tiny_body : forall base p md rva code s,
  sections_ok (pi_sections (m_pe_info md)) -> slice_ok (m_pe_data md) ->
  len code < 64 -> image_at md rva (enc_tiny code) ->
  exists b, load_body_at base p md rva s = Ok b s /\ b_code b = code.
Proof.
  intros base p md rva code s Hs Hd Hc Hi. destruct (tiny_run p md rva code s Hs Hd Hc Hi) as [i E].
  exists (mkBody code 8 [] i []). split; [|reflexivity]. rewrite <- E.
  destruct (body_reader p md rva _ s Hs Hi) as (off & post & E1 & E2 & El).
  unfold load_body_at, load_body. unfold bind at 1. symmetry. unfold bind at 1. rewrite E1.
  unfold bind at 1. symmetry. unfold bind at 1. rewrite E2. cbv zeta.
  assert (Ho : slice_ok ([] ++ [nb (4 * len code + 2)] ++ code ++ post)).
  { unfold slice_ok, enc_tiny in *. revert El. slen. lia. }
  change (new_reader (enc_tiny code ++ post)) with (here [] ([nb (4 * len code + 2)] ++ code ++ post)).
  rewrite (rd_bind _ p 1 bad_body) by (exact Ho || reflexivity). rewrite N.mod_1_r. cbn [N.eqb].
  rewrite (wr_bind _ _ _ _ _ _ _ (parses_rd_bytes p 1 bad_body [nb (4 * len code + 2)] eq_refl) Ho).
  cbn [le_dec]. rewrite N.mul_0_r, N.add_0_r, bn_nb_small by lia.
  assert (L3 : N.land (4 * len code + 2) 3 = 2).
  { change 3 with (N.ones 2). rewrite N.land_ones. change (2 ^ 2) with 4. rewrite N.add_comm, N.mul_comm, N.mod_add by discriminate. reflexivity. }
  rewrite L3. reflexivity.
Qed.

(** A body with a fat header and no clauses, or with clauses in the fat form, is read as at no address in particular
    where the header is at a multiple of four, and the reading is undefined elsewhere. *)
Inductive no_small_clauses (code : list byte) : bool -> list byte -> Prop :=
| no_section extra : no_small_clauses code false extra
| fat_form f more es : fill (12 + len code) f -> no_small_clauses code true (f ++ enc_fat_section more es).
Theorem C87_fat_body : forall base p md rva off init more ms tok code extra s,
  sections_ok (pi_sections (m_pe_info md)) -> slice_ok (m_pe_data md) ->
  ms < 2 ^ 16 -> tok < 2 ^ 32 -> len code < 2 ^ 32 ->
  maps_to (m_pe_info md) rva off -> bytes_at (m_pe_data md) off (enc_fat init more ms tok code ++ extra) ->
  no_small_clauses code more extra ->
  ((base + off) mod 4 = 0 -> load_body_at base p md rva s = load_body p md rva s) /\
  ((base + off) mod 4 <> 0 -> exists why, load_body_at base p md rva s = Ub why).
Proof.
  intros base p md rva off init more ms tok code extra s Hs Hd Hm Ht Hc Hr Hi Hn.
  destruct (fat_both base p md rva off init more ms tok code extra s Hs Hd Hm Ht Hc Hr Hi) as (post & Ho & E1 & E2).
  cbv zeta in E1, E2. rewrite E1, E2. split; intro A.
  - rewrite A. cbn [N.eqb]. destruct Hn as [extra|f more es Hf]; [reflexivity|].
    unfold bind at 1. symmetry. unfold bind at 1. destruct (load_locals p md tok s) as [ls s1| | | |]; try reflexivity.
    rewrite <- !app_assoc in *. unfold bind. rewrite fat_section_same; [reflexivity|exact A| |exact Ho].
    replace (len (enc_fat init true ms tok code)) with (12 + len code) by (unfold enc_fat; slen; change (len (le_enc 2 ms)) with 2; change (len (le_enc 4 (len code))) with 4; change (len (le_enc 4 tok)) with 4; lia).
    exact Hf.
  - apply N.eqb_neq in A. rewrite A. eexists. reflexivity.
Qed.

(** A body that is not at a multiple of four and has a fat header is read with an undefined effect, whatever follows
    the header. *)
Theorem C87_unaligned_body_refuted : forall base p md rva off init more ms tok code s,
  sections_ok (pi_sections (m_pe_info md)) -> slice_ok (m_pe_data md) ->
  ms < 2 ^ 16 -> tok < 2 ^ 32 -> len code < 2 ^ 32 ->
  maps_to (m_pe_info md) rva off -> bytes_at (m_pe_data md) off (enc_fat init more ms tok code) ->
  (base + off) mod 4 <> 0 -> exists why, load_body_at base p md rva s = Ub why.
Proof.
  intros base p md rva off init more ms tok code s Hs Hd Hm Ht Hc Hr Hi A.
  assert (Hi' : bytes_at (m_pe_data md) off (enc_fat init more ms tok code ++ [])) by (now rewrite app_nil_r).
  destruct (fat_both base p md rva off init more ms tok code [] s Hs Hd Hm Ht Hc Hr Hi') as (post & Ho & E1 & E2).
  cbv zeta in E2. rewrite E2. apply N.eqb_neq in A. rewrite A. eexists. reflexivity.
Qed.

(** A method with exception clauses in the small form, which is the one that compilers use, is never read with a
    defined effect: the code of a clause and the offset of its handler are two bytes each and five bytes apart.  So
    whatever C30 says of a body with small clauses holds by good luck. *)
Theorem C87_small_clauses_refuted : forall base p md rva init ms tok code f more es b s s',
  sections_ok (pi_sections (m_pe_info md)) -> slice_ok (m_pe_data md) ->
  ms < 2 ^ 16 -> tok < 2 ^ 32 -> len code < 2 ^ 32 ->
  image_at md rva (enc_fat init true ms tok code ++ f ++ enc_small_section more es) ->
  fill (12 + len code) f -> es <> [] -> 12 * len es + 4 < 2 ^ 8 ->
  load_body p md rva s = Ok b s' -> exists why, load_body_at base p md rva s = Ub why.
Proof.
  intros base p md rva init ms tok code f more es b s s' Hs Hd Hm Ht Hc (off & Hr & Hi) Hf He Hl E.
  destruct (fat_both base p md rva off init true ms tok code _ s Hs Hd Hm Ht Hc Hr Hi) as (post & Ho & E1 & E2).
  cbv zeta in E1, E2. rewrite E1 in E. rewrite E2. destruct (_ =? 0); [|eexists; reflexivity].
  apply bind_inv_ok in E as (ls & s1 & El & _). unfold bind. rewrite El.
  destruct es as [|e es]; [contradiction|]. rewrite <- !app_assoc in *.
  rewrite small_section_ub; [eexists; reflexivity|exact Hl| |exact Ho].
  replace (len (enc_fat init true ms tok code)) with (12 + len code) by (unfold enc_fat; slen; change (len (le_enc 2 ms)) with 2; change (len (le_enc 4 (len code))) with 4; change (len (le_enc 4 tok)) with 4; lia).
  exact Hf.
Qed.

(** ** Examples *)

(** The body of [Add] is read at an odd address too. *)
Example C87_tiny_body_example : exists b, load_body_at 7 Debug demo_md 4176 demo_app = Ok b demo_app /\ b_code b = [x02; x03; x58; x2a].
Proof.
  destruct demo_parts as (Hs & Hd & _). destruct C29_tiny_body_example as [Hc Hi]. now apply C87_tiny_body.
Qed.

(** The body of [MakePoint]: the offset is a multiple of four. *)
Example C87_fat_body_example : exists off, maps_to (m_pe_info demo_md) 4276 off /\
  bytes_at (m_pe_data demo_md) off (enc_fat true false 3 0x11000002 make_point_code ++ []) /\
  no_small_clauses make_point_code false [] /\ (4096 + off) mod 4 = 0 /\ (4097 + off) mod 4 <> 0.
Proof.
  destruct C29_fat_body_example as ((off & Hr & Hi) & _). exists off. split; [exact Hr|]. split; [now rewrite app_nil_r|].
  split; [constructor|].
  assert (E : off = 532).
  { destruct demo_parts as (Hs & _). apply (maps_to_run Debug _ _ off tt Hs) in Hr.
    vm_compute in Hr. injection Hr as <-. reflexivity. }
  subst off. split; [reflexivity|discriminate].
Qed.

(** The body of [Guarded]. *)
Example C87_small_clauses_example : exists b s', load_body Debug demo_md 4228 demo_app = Ok b s' /\
  b_clauses b <> [] /\ exists why, load_body_at 4096 Debug demo_md 4228 demo_app = Ub why.
Proof.
  destruct demo_parts as (Hs & Hd & Hb). destruct C30_clauses_example as (Hi & Hf & He & Hk & Hl).
  assert (Hc : len guarded_code < 2 ^ 32) by (vm_compute; reflexivity).
  assert (R : Debug = Debug -> len (c_types demo_app) + sum (map vectors []) < 2 ^ 32) by room_here.
  destruct (C30_clauses_partial Debug demo_md 4228 true 1 0 guarded_code [x00] guarded_clauses
              (enc_small_section false guarded_clauses) [] [] demo_app (demo_ready Debug) Hs Hd Hb
              eq_refl eq_refl Hc Hi Hf He Hk Hl (Forall_nil _) (Forall2_nil _) (Forall_nil _) R)
    as (b & s' & E & _ & _ & _ & _ & F).
  exists b, s'. split; [exact E|]. split; [intro N; rewrite N in F; inversion F|].
  apply (C87_small_clauses_refuted 4096 Debug demo_md 4228 true 1 0 guarded_code [x00] false guarded_clauses b demo_app s'
           Hs Hd eq_refl eq_refl Hc Hi Hf ltac:(discriminate) eq_refl E).
Qed.

Print Assumptions C87_body_nothing_else.
Print Assumptions C87_tiny_body.
Print Assumptions C87_fat_body.
Print Assumptions C87_unaligned_body_refuted.
Print Assumptions C87_small_clauses_refuted.

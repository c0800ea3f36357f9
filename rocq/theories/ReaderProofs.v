(** Proofs of the reader properties. *)
From Coq Require Import NArith ZArith String List Bool Lia ZifyBool ZifyNat ZifyN.
From Coq.Strings Require Import Byte.
From Verif Require Import Base Utf BinaryReader ParseSpec BaseFacts ReaderFacts SpecBytes SpecUtf
  UtfProofs PeProofs.
Import ListNotations.
Open Scope N_scope.

Lemma sub_list_bytes_at data pos n : pos + n <= len data ->
  bytes_at data pos (sub_list pos n data) /\ len (sub_list pos n data) = n.
Proof.
  intro H. assert (len (sub_list pos n data) = n) as L by (now apply len_sub_list).
  split; auto. apply bytes_at_iff. rewrite L. auto.
Qed.

Lemma bytes_at_unique data pos a b :
  bytes_at data pos a -> bytes_at data pos b -> len a = len b -> a = b.
Proof. rewrite !bytes_at_iff. intros [_ E1] [_ E2] E. rewrite <- E1, <- E2. now rewrite E. Qed.

Lemma read_spec p n data pos : slice_ok data -> pos + n < 2 ^ 64 ->
  (forall bs, bytes_at data pos bs -> len bs = n ->
     read p n (mkReader data pos) = Ok (Some bs) (mkReader data (pos + n)) /\
     peek p n (mkReader data pos) = Ok (Some bs) (mkReader data pos)) /\
  (len data < pos + n ->
     read p n (mkReader data pos) = Ok None (mkReader data pos) /\
     peek p n (mkReader data pos) = Ok None (mkReader data pos)).
Proof.
  intros Hs Hb. split.
  - intros bs H <-. apply bytes_at_iff in H as [H1 H2].
    rewrite read_ok, peek_ok by (simpl; auto). simpl. now rewrite H2.
  - intro H. rewrite read_none, peek_none by (simpl; auto). auto.
Qed.

Lemma rd_spec p n e data pos v : slice_ok data -> pos + n < 2 ^ 64 ->
  ((exists r, rd p n e (mkReader data pos) = Ok v r) <-> u_at data pos n v).
Proof.
  intros Hs Hb. rewrite u_at_iff. split.
  - intros [r H]. apply rd_ok_inv in H; auto. destruct H as (H1 & H2 & H3). auto.
  - intros [H ->]. unfold rd, bind. rewrite read_ok by (simpl; auto). eexists. reflexivity.
Qed.

Lemma read_no_ub p n data pos : slice_ok data -> pos < 2 ^ 64 -> n < 2 ^ 63 ->
  forall w, read p n (mkReader data pos) <> Ub w /\ peek p n (mkReader data pos) <> Ub w.
Proof.
  intros Hs Hp Hn w. unfold slice_ok in Hs.
  assert (forall w', peek p n (mkReader data pos) <> Ub w') as HP.
  { intro w'. unfold peek, u_add. cbn [rpos rdata].
    rewrite pow63, pow64 in *.
    destruct (N.ltb_spec (pos + n) 18446744073709551616).
    - destruct (N.ltb_spec (len data) (pos + n)); [discriminate|].
      destruct (N.ltb_spec (len data) pos); [discriminate|].
      discriminate.
    - destruct p; [discriminate|].
      destruct (N.ltb_spec (len data) ((pos + n) mod 18446744073709551616)); [discriminate|].
      destruct (N.ltb_spec (len data) pos); [discriminate|].
      exfalso. lia. }
  split; auto. unfold read, bind.
  destruct (peek p n (mkReader data pos)) as [[d|] r| | | |] eqn:E; try discriminate.
  - unfold advance. destruct (u_add p 64 (rpos r) n); discriminate.
  - specialize (HP why). congruence.
Qed.

Lemma read_array_spec p sz cnt data pos : slice_ok data -> pos + cnt * sz < 2 ^ 64 ->
  (forall bs, bytes_at data pos bs -> len bs = cnt * sz ->
     read_array p sz cnt (mkReader data pos) = Ok (Some bs) (mkReader data (pos + cnt * sz))) /\
  (len data < pos + cnt * sz ->
     read_array p sz cnt (mkReader data pos) = Ok None (mkReader data pos)).
Proof.
  intros Hs Hb. split.
  - intros bs H Hl. apply bytes_at_iff in H as [H1 H2]. rewrite Hl in *.
    rewrite read_array_ok by (simpl; auto). simpl. now rewrite H2.
  - intro H. rewrite read_array_none by (simpl; auto). auto.
Qed.

Lemma peek_array_spec p sz cnt data pos : slice_ok data -> pos + cnt * sz < 2 ^ 64 ->
  pos + cnt * sz <> len data ->
  (forall bs, bytes_at data pos bs -> len bs = cnt * sz ->
     peek_array p sz cnt (mkReader data pos) = Ok (Some bs) (mkReader data pos)) /\
  (len data < pos + cnt * sz ->
     peek_array p sz cnt (mkReader data pos) = Ok None (mkReader data pos)).
Proof.
  intros Hs Hb Hne. split.
  - intros bs H Hl. apply bytes_at_iff in H as [H1 H2]. rewrite Hl in *.
    rewrite peek_array_ok by (simpl; auto; lia). simpl. now rewrite H2.
  - intro H. rewrite peek_array_none by (simpl; auto; lia). auto.
Qed.

Lemma nul_position_app t rest : ~ In x00 t -> nul_position (t ++ x00 :: rest) = Some (len t).
Proof.
  induction t as [|b t IH]; intro H.
  - reflexivity.
  - cbn [app nul_position]. destruct (Byte.eqb b x00) eqn:E.
    + apply byte_eqb_spec in E. exfalso. apply H. now left.
    + rewrite IH by (intro; apply H; now right). rewrite len_cons. f_equal. lia.
Qed.

Lemma nul_position_none t : ~ In x00 t -> nul_position t = None.
Proof.
  induction t as [|b t IH]; intro H; auto.
  cbn [nul_position]. destruct (Byte.eqb b x00) eqn:E.
  - apply byte_eqb_spec in E. exfalso. apply H. now left.
  - rewrite IH; auto. intro; apply H; now right.
Qed.

Lemma nul_split l : In x00 l -> exists t rest, l = t ++ x00 :: rest /\ ~ In x00 t.
Proof.
  induction l as [|b l IH]; intro H; [destruct H|].
  destruct (Byte.eqb b x00) eqn:E.
  - apply byte_eqb_spec in E. subst. exists [], l. split; auto.
  - destruct H as [->|H]; [rewrite (proj2 (byte_eqb_spec x00 x00) eq_refl) in E; discriminate|].
    destruct (IH H) as (t & rest & -> & Hn). exists (b :: t), rest. split; auto.
    intros [->|Hi]; auto. rewrite (proj2 (byte_eqb_spec x00 x00) eq_refl) in E. discriminate.
Qed.

Lemma sub_list_0 {A} (l : list A) : sub_list 0 (len l) l = l.
Proof. unfold sub_list. rewrite to_nat_len. simpl. apply firstn_all. Qed.

Lemma read_str_nonul p text pre rest : slice_ok (pre ++ text ++ rest) -> ~ In x00 text ->
  read_str p (len text) (mkReader (pre ++ text ++ rest) (len pre)) =
  Ok (if utf8_valid text then Some text else None)
     (mkReader (pre ++ text ++ rest) (len pre + len text)).
Proof.
  intros Hs Hn. unfold read_str.
  erewrite bind_ok.
  2: { apply (parses_read_array p 1 (len text) text); [lia|exact Hs]. }
  cbv beta iota. rewrite nul_position_none by auto. rewrite sub_list_0.
  unfold ret. reflexivity.
Qed.

Lemma read_str_nul p text pad pre rest :
  slice_ok (pre ++ (text ++ x00 :: pad) ++ rest) -> ~ In x00 text ->
  read_str p (len (text ++ x00 :: pad)) (mkReader (pre ++ (text ++ x00 :: pad) ++ rest) (len pre)) =
  Ok (if utf8_valid text then Some text else None)
     (mkReader (pre ++ (text ++ x00 :: pad) ++ rest) (len pre + len (text ++ x00 :: pad))).
Proof.
  intros Hs Hn. unfold read_str.
  erewrite bind_ok.
  2: { apply (parses_read_array p 1 _ (text ++ x00 :: pad)); [lia|exact Hs]. }
  cbv beta iota. rewrite nul_position_app by auto.
  replace (sub_list 0 (len text) (text ++ x00 :: pad)) with text; [reflexivity|].
  unfold sub_list. simpl. now rewrite firstn_app_len.
Qed.

Lemma read_c_str_run p text pre rest :
  slice_ok (pre ++ text ++ x00 :: rest) -> ~ In x00 text ->
  read_c_str p (mkReader (pre ++ text ++ x00 :: rest) (len pre)) =
  Ok (if utf8_valid text then Some text else None)
     (mkReader (pre ++ text ++ x00 :: rest) (len pre + len text)).
Proof.
  intros Hs Hn. unfold read_c_str. cbn [rdata rpos].
  destruct (N.ltb_spec (len (pre ++ text ++ x00 :: rest)) (len pre)); [slen; lia|].
  rewrite skipn_app_len. rewrite nul_position_app by auto. now apply read_str_nonul.
Qed.

Lemma read_c_str_spec p data pos text : slice_ok data ->
  bytes_at data pos (text ++ [x00]) -> ~ In x00 text ->
  (is_utf8 text ->
   read_c_str p (mkReader data pos) = Ok (Some text) (mkReader data (pos + len text))) /\
  (~ is_utf8 text ->
   exists r, read_c_str p (mkReader data pos) = Ok None r /\ rdata r = data).
Proof.
  intros Hs (pre & post & -> & <-) Hn.
  rewrite <- app_assoc in *. cbn [app] in *.
  rewrite read_c_str_run by auto. split.
  - intro H. apply utf8_valid_spec in H. now rewrite H.
  - intro H. destruct (utf8_valid text) eqn:E.
    + exfalso. apply H. now apply utf8_valid_spec.
    + eexists. split; reflexivity.
Qed.

Lemma read_c_str_unterminated p data pos : pos <= len data ->
  (forall k, ~ bytes_at data (pos + k) [x00]) ->
  read_c_str p (mkReader data pos) = Ok None (mkReader data pos).
Proof.
  intros Hp Hn. unfold read_c_str. cbn [rdata rpos].
  destruct (N.ltb_spec (len data) pos); [lia|].
  rewrite nul_position_none; auto.
  intro Hi. apply in_split in Hi as (l1 & l2 & E).
  apply (Hn (len l1)). exists (firstn (N.to_nat pos) data ++ l1), l2. split.
  - rewrite <- app_assoc. cbn [app]. rewrite <- E. now rewrite firstn_skipn.
  - slen. rewrite len_firstn by lia. lia.
Qed.

Lemma read_str_spec p data pos text pad : slice_ok data -> ~ In x00 text ->
  bytes_at data pos (text ++ pad) -> (pad = [] \/ exists pad', pad = x00 :: pad') ->
  is_utf8 text ->
  read_str p (len (text ++ pad)) (mkReader data pos) =
  Ok (Some text) (mkReader data (pos + len (text ++ pad))).
Proof.
  intros Hs Hn (pre & post & -> & <-) Hp Hu. apply utf8_valid_spec in Hu.
  destruct Hp as [->|[pad' ->]].
  - rewrite app_nil_r in *. rewrite read_str_nonul by auto. now rewrite Hu.
  - rewrite read_str_nul by auto. now rewrite Hu.
Qed.

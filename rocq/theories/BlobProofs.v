(** Lemmas for C09 and C11-C21. *)
From Coq Require Import NArith ZArith String List Bool Lia.
From Coq.Strings Require Import Byte.
From Verif Require Import Base BinaryReader ParseSpec BaseFacts ReaderFacts Tables TablesProofs
  Utf SpecBytes SpecUtf UtfProofs ReaderProofs Blob SpecBlob.
Import ListNotations.
Open Scope N_scope.

Lemma bn_nb_small v : v < 256 -> bn (nb v) = v.
Proof. intro. rewrite bn_nb. apply N.mod_small. lia. Qed.

(** ** Compressed integers *)

Lemma lead4 b : (N.land (bn b) 0xc0 =? 0xc0) = (0xc0 <=? bn b).
Proof. destruct b; reflexivity. Qed.
Lemma lead2 b : (N.land (bn b) 0x80 =? 0x80) = (0x80 <=? bn b).
Proof. destruct b; reflexivity. Qed.

Lemma parses_rd_be p n e bs : len bs = n -> parses (rd_be p n e) bs (be_dec bs).
Proof.
  intro H. unfold rd_be. eapply parses_bind'; [symmetry; apply app_nil_r|now apply parses_read|].
  apply parses_ret.
Qed.

Lemma be2 a b : be_dec [a; b] = 256 * bn a + bn b.
Proof. unfold be_dec. cbn [rev app le_dec]. lia. Qed.
Lemma be4 a b c d : be_dec [a; b; c; d] = 16777216 * bn a + 65536 * bn b + 256 * bn c + bn d.
Proof. unfold be_dec. cbn [rev app le_dec]. lia. Qed.

Lemma parses_form1 p v : v < 128 -> parses (read_compressed_u32 p) (form1 v) v.
Proof.
  intro H. unfold read_compressed_u32, form1. apply parses_peek1.
  rewrite lead4, lead2, bn_nb_small by lia.
  destruct (N.leb_spec 0xc0 v); [lia|]. destruct (N.leb_spec 0x80 v); [lia|].
  pose proof (parses_rd_bytes p 1 blob_eof [nb v] eq_refl) as P.
  cbn [le_dec] in P. rewrite bn_nb_small in P by lia.
  replace (v + 256 * 0) with v in P by lia. exact P.
Qed.

Lemma parses_form2 p v : v < 2 ^ 14 -> parses (read_compressed_u32 p) (form2 v) v.
Proof.
  change (2 ^ 14) with 16384. intro H. unfold read_compressed_u32, form2. apply parses_peek1.
  assert (v / 256 < 64) by dlia.
  rewrite lead4, lead2, !bn_nb_small by lia.
  destruct (N.leb_spec 0xc0 (0x80 + v / 256)); [lia|].
  destruct (N.leb_spec 0x80 (0x80 + v / 256)); [|lia].
  eapply parses_bind'; [symmetry; apply app_nil_r|apply parses_rd_be; reflexivity|].
  rewrite be2, !bn_nb_small by dlia. rewrite u_sub_small by dlia.
  replace (256 * (128 + v / 256) + v mod 256 - 0x8000) with v by dlia. apply parses_ret.
Qed.

Lemma parses_form4 p v : v < 2 ^ 30 -> parses (read_compressed_u32 p) (form4 v) v.
Proof.
  change (2 ^ 30) with 1073741824. intro H. unfold read_compressed_u32, form4. apply parses_peek1.
  assert (v / 16777216 < 64) by dlia.
  rewrite lead4, !bn_nb_small by lia.
  destruct (N.leb_spec 0xc0 (0xc0 + v / 16777216)); [|lia].
  eapply parses_bind'; [symmetry; apply app_nil_r|apply parses_rd_be; reflexivity|].
  rewrite be4, !bn_nb_small by dlia. rewrite u_sub_small by dlia.
  match goal with |- parses (ret ?x) _ _ => replace x with v by dlia end. apply parses_ret.
Qed.

Lemma parses_compress p v : v < 2 ^ 29 -> parses (read_compressed_u32 p) (compress v) v.
Proof.
  change (2 ^ 29) with 536870912. intro H. unfold compress.
  destruct (N.ltb_spec v 0x80); [apply parses_form1; lia|].
  destruct (N.ltb_spec v 0x4000); [apply parses_form2; change (2 ^ 14) with 16384; lia|].
  apply parses_form4. change (2 ^ 30) with 1073741824. lia.
Qed.

Lemma len_compress_pos v : (1 <= List.length (compress v))%nat.
Proof. unfold compress. destruct (v <? 0x80), (v <? 0x4000); simpl; lia. Qed.

(** What the decoder does on arbitrary bytes, by lead byte. *)
Lemma rcu_run p r : in_bounds r ->
  match read_compressed_u32 p r with
  | Ok v r' => rdata r' = rdata r /\ rpos r < rpos r' /\ rpos r' <= len (rdata r) /\ v < 2 ^ 30 /\
               exists form, bytes_at (rdata r) (rpos r) form /\ some_form form v /\
                            rpos r' = rpos r + len form
  | Err e r' => r' = r /\ e = blob_eof
  | _ => False
  end.
Proof.
  intros [Hs Hp]. destruct r as [d pos]. cbn [rdata rpos] in *.
  unfold read_compressed_u32.
  assert (S2 := Hs). unfold slice_ok in S2. rewrite pow63 in S2.
  destruct (split_at1 pos d Hp) as (pre & rest & -> & <-).
  destruct rest as [|b rest].
  { unfold pk, bind. rewrite peek_none; [|slen; cbn [rdata rpos]; slen; lia|cbn [rpos]; rewrite pow64; slen; lia].
    cbn. auto. }
  unfold bind. rewrite peek1_at by auto.
  rewrite lead4, lead2.
  pose proof (len_app pre (b :: rest)) as L. rewrite len_cons in L.
  destruct (N.leb_spec 0xc0 (bn b)) as [G|G].
  - unfold rd_be, bind.
    destruct rest as [|b1 [|b2 [|b3 rest]]];
      try (rewrite read_none; [cbn; auto| |]; cbn [rdata rpos]; slen; rewrite ?pow64; lia).
    rewrite read_ok; [|exact Hs|cbn [rdata rpos]; slen; lia].
    cbn [rdata rpos].
    change (b :: b1 :: b2 :: b3 :: rest) with ([b; b1; b2; b3] ++ rest) in *.
    change 4 with (len [b; b1; b2; b3]) at 1. rewrite sub_list_app. cbn [ret]. rewrite be4.
    pose proof (bn_lt b). pose proof (bn_lt b1). pose proof (bn_lt b2). pose proof (bn_lt b3).
    change (2 ^ 30) with 1073741824.
    cbv beta iota delta [ret].
    rewrite u_sub_small by lia. cbn [rdata rpos]. slen. repeat split; try lia.
    exists [b; b1; b2; b3]. split; [exists pre, rest; auto|]. split; [|reflexivity].
    right; right. unfold form4.
    split; [|change (2 ^ 30) with 1073741824; lia].
    f_equal; [|f_equal; [|f_equal; [|f_equal]]]; apply bn_inj; rewrite bn_nb; dlia.
  - destruct (N.leb_spec 0x80 (bn b)) as [G2|G2].
    + unfold rd_be, bind.
      destruct rest as [|b1 rest];
        try (rewrite read_none; [cbn; auto| |]; cbn [rdata rpos]; slen; rewrite ?pow64; lia).
      rewrite read_ok; [|exact Hs|cbn [rdata rpos]; slen; lia].
      cbn [rdata rpos].
      change (b :: b1 :: rest) with ([b; b1] ++ rest) in *.
      change 2 with (len [b; b1]) at 1. rewrite sub_list_app. cbv beta iota delta [ret]. rewrite be2.
      pose proof (bn_lt b). pose proof (bn_lt b1).
      change (2 ^ 30) with 1073741824.
      rewrite u_sub_small by lia. cbn [rdata rpos]. slen. repeat split; try lia.
      exists [b; b1]. split; [exists pre, rest; auto|]. split; [|reflexivity].
      right; left. unfold form2. split; [|change (2 ^ 14) with 16384; lia].
      f_equal; [|f_equal]; apply bn_inj; rewrite bn_nb; dlia.
    + unfold rd, bind. rewrite read_ok; [|exact Hs|cbn [rdata rpos]; slen; lia].
      cbn [rdata rpos].
      change (b :: rest) with ([b] ++ rest) in *.
      change 1 with (len [b]) at 1. rewrite sub_list_app. cbn [ret rdata rpos le_dec].
      change (2 ^ 30) with 1073741824. pose proof (bn_lt b). cbn [le_dec]. slen.
      repeat split; try lia.
      exists [b]. split; [exists pre, rest; auto|]. split; [|reflexivity].
      left. unfold form1. split; [|change (2 ^ 7) with 128; lia].
      f_equal. apply bn_inj; rewrite bn_nb; dlia.
Qed.

Lemma total_rcu p : total (read_compressed_u32 p).
Proof.
  intros r Hr. pose proof (rcu_run p r Hr) as H.
  destruct (read_compressed_u32 p r); auto.
  - destruct H as (H1 & H2 & H3 & _). repeat split; auto; lia.
  - destruct H as (-> & _). destruct Hr. repeat split; auto; lia.
Qed.

(** ** Rejection *)

(** [rejects m bs]: wherever [bs] occurs, [m] started there returns an error. *)
Definition rejects {A} (m : M reader A) (bs : list byte) : Prop :=
  forall pre rest, slice_ok (pre ++ bs ++ rest) ->
    exists e r, m (mkReader (pre ++ bs ++ rest) (len pre)) = Err e r.

Lemma rejects_fail {A} e bs : rejects (@fail reader A e) bs.
Proof. intros pre rest _. eexists; eexists; reflexivity. Qed.
Lemma rejects_bind_l {A B} (m : M reader A) (k : A -> M reader B) bs1 bs2 :
  rejects m bs1 -> rejects (bind m k) (bs1 ++ bs2).
Proof.
  intros H pre rest Hs. rewrite <- app_assoc in *.
  destruct (H pre (bs2 ++ rest) Hs) as (e & r & E). exists e, r. unfold bind. now rewrite E.
Qed.
Lemma rejects_bind_r {A B} (m : M reader A) (k : A -> M reader B) bs1 bs2 a :
  parses m bs1 a -> rejects (k a) bs2 -> rejects (bind m k) (bs1 ++ bs2).
Proof.
  intros H1 H2 pre rest Hs. rewrite <- app_assoc in *.
  unfold bind. rewrite (H1 pre (bs2 ++ rest)) by auto.
  specialize (H2 (pre ++ bs1) rest). rewrite <- !app_assoc, len_app in H2. now apply H2.
Qed.
Lemma rejects_ext {A} (m m' : M reader A) bs :
  (forall r, m r = m' r) -> rejects m bs -> rejects m' bs.
Proof. intros H P pre rest Hs. rewrite <- H. now apply P. Qed.

Lemma parses_unique {A} (m : M reader A) bs a b :
  slice_ok bs -> parses m bs a -> parses m bs b -> a = b.
Proof.
  intros Hs H1 H2. specialize (H1 [] []). specialize (H2 [] []). rewrite app_nil_r in *.
  cbn [app] in *. rewrite (H1 Hs) in H2. specialize (H2 Hs). congruence.
Qed.
Lemma parses_not_rejects {A} (m : M reader A) bs a :
  slice_ok bs -> parses m bs a -> ~ rejects m bs.
Proof.
  intros Hs H1 H2. specialize (H1 [] []). destruct (H2 [] []) as (e & r & E); rewrite app_nil_r in *; auto.
  cbn [app] in *. rewrite H1 in E; congruence.
Qed.

(** ** Type references and shapes *)

Lemma land3 v : N.land v 3 = v mod 4.
Proof. exact (N.land_ones v 2). Qed.
Lemma index_of v : N.shiftr (N.ldiff v 3) 2 = v / 4.
Proof.
  change 3 with (N.ones 2). rewrite N.ldiff_ones_r, N.shiftr_shiftl_l by lia.
  rewrite N.sub_diag, N.shiftl_0_r, N.shiftr_div_pow2. reflexivity.
Qed.

Lemma parses_named p tab row : named_ok row ->
  parses (read_type_def_or_ref p) (enc_named tab row) (named_ref tab row).
Proof.
  unfold named_ok, enc_named. intro H.
  assert (T : named_tag tab < 3) by (destruct tab; cbn; lia).
  unfold read_type_def_or_ref.
  eapply parses_bind'; [symmetry; apply app_nil_r|apply parses_compress; lia|].
  rewrite land3, index_of.
  replace ((4 * row + named_tag tab) mod 4) with (named_tag tab) by dlia.
  replace ((4 * row + named_tag tab) / 4) with row by dlia.
  destruct tab; apply parses_ret.
Qed.

(** What the decoder makes of a signed lower bound. *)
Definition raw_bound (z : Z) : N := rotated (signed_bits z) z.

Lemma rotated_pow bits z : 1 <= bits -> rotated bits z < 2 ^ bits.
Proof.
  intro H. unfold rotated.
  assert (E : 2 ^ bits = 2 * 2 ^ (bits - 1)).
  { replace bits with (N.succ (bits - 1)) at 1 by lia. apply N.pow_succ_r'. }
  set (h := 2 ^ (bits - 1)) in *. assert (0 < h) by (apply N.neq_0_lt_0, N.pow_nonzero; lia).
  assert (Hu : Z.to_N (z mod 2 ^ Z.of_N bits) < 2 * h).
  { rewrite <- E. rewrite <- (N2Z.id (2 ^ bits)). rewrite N2Z.inj_pow. change (Z.of_N 2) with 2%Z.
    assert (0 < 2 ^ Z.of_N bits)%Z by (apply Z.pow_pos_nonneg; lia).
    pose proof (Z.mod_pos_bound z (2 ^ Z.of_N bits)). lia. }
  set (u := Z.to_N _) in *. clearbody u h. rewrite E.
  destruct (N.lt_ge_cases u h).
  - rewrite (N.div_small u h) by lia. rewrite N.mod_small by lia. lia.
  - replace u with (u - h + 1 * h) at 2 by lia. rewrite N.div_add, N.div_small by lia.
    replace (2 * u) with (2 * (u - h) + 1 * (2 * h)) by lia. rewrite N.mod_add by lia.
    rewrite N.mod_small by lia. lia.
Qed.

Lemma parses_signed p z : (- 2 ^ 28 <= z < 2 ^ 28)%Z ->
  parses (read_compressed_u32 p) (compress_signed z) (raw_bound z).
Proof.
  intro H. unfold compress_signed, raw_bound, signed_bits.
  destruct ((-64 <=? z) && (z <? 64))%Z.
  { apply parses_form1. apply (rotated_pow 7 z). lia. }
  destruct ((-8192 <=? z) && (z <? 8192))%Z.
  { apply parses_form2. apply (rotated_pow 14 z). lia. }
  apply parses_form4. pose proof (rotated_pow 29 z ltac:(lia)).
  change (2 ^ 29) with 536870912 in *. change (2 ^ 30) with 1073741824. lia.
Qed.

Lemma rotated_wrong bits z : 1 <= bits -> (- 2 ^ (Z.of_N bits - 1) <= z < 2 ^ (Z.of_N bits - 1))%Z ->
  z <> 0%Z -> rotated bits z <> Z.to_N z.
Proof.
  intros Hb Hz Hnz. unfold rotated.
  assert (E : 2 ^ bits = 2 * 2 ^ (bits - 1)).
  { replace bits with (N.succ (bits - 1)) at 1 by lia. apply N.pow_succ_r'. }
  assert (EZ : (2 ^ Z.of_N bits = 2 * 2 ^ (Z.of_N bits - 1))%Z).
  { replace (Z.of_N bits) with (Z.succ (Z.of_N bits - 1)) at 1 by lia. apply Z.pow_succ_r. lia. }
  assert (EH : Z.of_N (2 ^ (bits - 1)) = (2 ^ (Z.of_N bits - 1))%Z).
  { rewrite N2Z.inj_pow. f_equal. lia. }
  rewrite EZ, E.
  set (h := 2 ^ (bits - 1)) in *. set (hz := (2 ^ (Z.of_N bits - 1))%Z) in *.
  assert (0 < h) by (apply N.neq_0_lt_0, N.pow_nonzero; lia). clearbody h hz.
  destruct (Z.lt_ge_cases z 0).
  - replace (z mod (2 * hz))%Z with (z + 2 * hz)%Z
      by (symmetry; rewrite <- (Z.mod_small (z + 2 * hz) (2 * hz)) by lia;
          replace (z + 2 * hz)%Z with (z + 1 * (2 * hz))%Z by lia; now rewrite Z.mod_add by lia).
    set (u := Z.to_N (z + 2 * hz)). assert (h <= u < 2 * h) by lia.
    replace (u / h) with 1. 2:{ apply (N.div_unique u h 1 (u - h)); lia. }
    lia.
  - rewrite Z.mod_small by lia. set (u := Z.to_N z) in *.
    rewrite (N.div_small u h) by lia. rewrite N.mod_small by lia. lia.
Qed.

Lemma raw_bound_zero : raw_bound 0 = 0.
Proof. reflexivity. Qed.
Lemma raw_bound_wrong z : (- 2 ^ 28 <= z < 2 ^ 28)%Z -> (raw_bound z = Z.to_N z <-> z = 0%Z).
Proof.
  intro H. split; [|intros ->; reflexivity]. intro E.
  destruct (Z.eq_dec z 0) as [|Hz]; [assumption|exfalso]. revert E.
  unfold raw_bound, signed_bits.
  destruct ((-64 <=? z) && (z <? 64))%Z eqn:E1.
  { apply andb_true_iff in E1 as [? ?]. apply rotated_wrong; auto; lia. }
  destruct ((-8192 <=? z) && (z <? 8192))%Z eqn:E2.
  { apply andb_true_iff in E2 as [? ?]. apply rotated_wrong; auto; lia. }
  apply rotated_wrong; auto; lia.
Qed.

(** What the decoder makes of a shape. *)
Definition raw_shape (s : shape) : array_shape :=
  {| as_rank := rank s; as_sizes := sizes s; as_lower_bounds := map raw_bound (lower s) |}.

Lemma parses_compress_list p l : Forall (fun n => n < 2 ^ 29) l ->
  parses (repeat_m (N.to_nat (len l)) (read_compressed_u32 p)) (concat (map compress l)) l.
Proof.
  intro H. rewrite <- (map_id l) at 3. apply parses_repeat_map; [unfold len; lia|].
  intros x Hx. apply parses_compress. rewrite Forall_forall in H. now apply H.
Qed.

Lemma parses_shape p s : shape_ok s -> parses (read_array_shape p) (enc_shape s) (raw_shape s).
Proof.
  intros (H1 & H2 & H3 & H4 & H5). unfold read_array_shape, enc_shape.
  apply parses_bind with (a := rank s); [now apply parses_compress|].
  apply parses_bind with (a := len (sizes s)); [now apply parses_compress|].
  apply parses_bind with (a := sizes s); [now apply parses_compress_list|].
  apply parses_bind with (a := len (lower s)); [now apply parses_compress|].
  eapply parses_bind'; [symmetry; apply app_nil_r| |apply parses_ret].
  apply parses_repeat_map; [unfold len; lia|].
  intros x Hx. apply parses_signed. rewrite Forall_forall in H5. now apply H5.
Qed.

Lemma raw_shape_exact s : shape_ok s ->
  (raw_shape s = api_shape s <-> forallb (Z.eqb 0) (lower s) = true).
Proof.
  intros (_ & _ & _ & _ & H). unfold raw_shape, api_shape. split.
  - intro E. assert (E2 : map raw_bound (lower s) = map Z.to_N (lower s)) by congruence. clear E.
    induction H as [|z l Hz _ IH]; [reflexivity|]. cbn [map forallb] in *.
    assert (raw_bound z = Z.to_N z) as Ez by congruence.
    apply raw_bound_wrong in Ez; auto. subst z. cbn. apply IH. congruence.
  - intro E. f_equal. apply map_ext_in. intros z Hz. rewrite forallb_forall in E.
    specialize (E z Hz). apply Z.eqb_eq in E. subst z. reflexivity.
Qed.

(** ** Types *)

Fixpoint sig_type_ind' (P : sig_type -> Prop)
  (f1 : forall s, P (TSimple s)) (f2 : forall t, P t -> P (TPtr t))
  (f3 : forall t, P t -> P (TByRef t)) (f4 : forall tab row, P (TValue tab row))
  (f5 : forall tab row, P (TClass tab row)) (f6 : forall n, P (TVar n)) (f7 : forall n, P (TMVar n))
  (f8 : forall t s, P t -> P (TArray t s))
  (f9 : forall t args, P t -> Forall P args -> P (TGenericInst t args))
  (f10 : forall t, P t -> P (TSzArray t))
  (f11 : forall c r ps, P r -> Forall P ps -> P (TFnPtr c r ps))
  (f12 : forall b tab row t, P t -> P (TModified b tab row t)) (t : sig_type) {struct t} : P t :=
  let rec := sig_type_ind' P f1 f2 f3 f4 f5 f6 f7 f8 f9 f10 f11 f12 in
  let fix recs (l : list sig_type) : Forall P l :=
    match l return Forall P l with
    | [] => Forall_nil P
    | t :: l' => Forall_cons t (rec t) (recs l')
    end in
  match t return P t with
  | TSimple s => f1 s
  | TPtr t => f2 t (rec t)
  | TByRef t => f3 t (rec t)
  | TValue tab row => f4 tab row
  | TClass tab row => f5 tab row
  | TVar n => f6 n
  | TMVar n => f7 n
  | TArray t s => f8 t s (rec t)
  | TGenericInst t args => f9 t args (rec t) (recs args)
  | TSzArray t => f10 t (rec t)
  | TFnPtr c r ps => f11 c r ps (rec r) (recs ps)
  | TModified b tab row t => f12 b tab row t (rec t)
  end.

(** What the decoder makes of a plain type. *)
Fixpoint raw_type (t : sig_type) : element_type :=
  match t with
  | TSimple s => simple_api s
  | TPtr t => EPointer (raw_type t)
  | TByRef t => EReference (raw_type t)
  | TValue tab row => EValueType (named_ref tab row)
  | TClass tab row => EClass (named_ref tab row)
  | TVar n => ETypeGenericParam n
  | TMVar n => EMethodGenericParam n
  | TArray t s => EArray (raw_type t) (raw_shape s)
  | TGenericInst t args => EGeneric (raw_type t) (map raw_type args)
  | TSzArray t => ESzArray (raw_type t)
  | TFnPtr _ _ _ => EFnPtr
  | TModified _ _ _ t => raw_type t
  end.

Lemma fold_and_Forall {A} (P : A -> Prop) l : fold_right and True (map P l) <-> Forall P l.
Proof.
  induction l; cbn; [split; auto|]. rewrite IHl. split; [intros []; auto|intro H; inversion H; auto].
Qed.

Lemma rd1_byte p b (k : N -> M reader element_type) bs a :
  parses (k (bn b)) bs a -> parses (bind (rd p 1 blob_eof) k) (b :: bs) a.
Proof.
  intro H. change (b :: bs) with ([b] ++ bs). eapply parses_bind; [|exact H].
  replace (bn b) with (le_dec [b]) by (cbn [le_dec]; lia). now apply parses_rd_bytes.
Qed.
Lemma rd1_byte_rej {A} p b (k : N -> M reader A) bs :
  rejects (k (bn b)) bs -> rejects (bind (rd p 1 blob_eof) k) (b :: bs).
Proof.
  intro H. change (b :: bs) with ([b] ++ bs). eapply rejects_bind_r; [|exact H].
  replace (bn b) with (le_dec [b]) by (cbn [le_dec]; lia). now apply parses_rd_bytes.
Qed.

Fixpoint depth (t : sig_type) : nat :=
  match t with
  | TSimple _ | TValue _ _ | TClass _ _ | TVar _ | TMVar _ => 0
  | TPtr t | TByRef t | TSzArray t | TArray t _ | TModified _ _ _ t => S (depth t)
  | TGenericInst t args => S (Nat.max (depth t) (list_max (map depth args)))
  | TFnPtr _ r ps => 0
  end.

Lemma list_max_le l x : In x l -> (x <= list_max l)%nat.
Proof. intro H. pose proof (list_max_le l (list_max l)) as [A _]. specialize (A (le_n _)).
  rewrite Forall_forall in A. auto. Qed.

Lemma length_concat_in {A} (l : list (list A)) x : In x l -> (List.length x <= List.length (concat l))%nat.
Proof.
  induction l; [easy|]. intros [->|H]; cbn; rewrite app_length; [lia|]. specialize (IHl H). lia.
Qed.

Lemma depth_length t : (depth t <= List.length (enc_type t))%nat.
Proof.
  induction t using sig_type_ind'; cbn [depth enc_type List.length]; try lia;
    rewrite ?app_length; try lia.
  apply le_n_S. apply Nat.max_lub; [lia|].
  transitivity (List.length (concat (map enc_type args))); [|lia].
  assert (E : (list_max (map depth args) <= List.length (concat (map enc_type args)))%nat); [|exact E].
  apply List.list_max_le. rewrite Forall_forall. intros x Hx. apply in_map_iff in Hx as (t' & <- & Ht).
  rewrite Forall_forall in H. etransitivity; [now apply H|]. apply length_concat_in. now apply in_map.
Qed.

Lemma parses_type_f p : forall t f, type_ok t -> plain t = true -> (depth t < f)%nat ->
  parses (element_type_f f p) (enc_type t) (raw_type t).
Proof.
  induction t using sig_type_ind'; intros f Ho Hp Hf; (destruct f as [|f]; [lia|]);
    cbn [element_type_f enc_type raw_type depth type_ok plain] in *; try discriminate;
    apply rd1_byte; cbn [bn].
  - destruct s; apply parses_ret.
  - apply parses_bind_ret. apply IHt; auto; lia.
  - apply parses_bind_ret. apply IHt; auto; lia.
  - apply parses_bind_ret. now apply parses_named.
  - apply parses_bind_ret. now apply parses_named.
  - apply parses_bind_ret. now apply parses_compress.
  - apply parses_bind_ret. now apply parses_compress.
  - destruct Ho. eapply parses_bind; [apply IHt; auto; lia|].
    apply parses_bind_ret. now apply parses_shape.
  - destruct Ho as (Ho & Hl & Ha). apply andb_true_iff in Hp as [Hp Hpa].
    rewrite fold_and_Forall in Ha. rewrite forallb_forall in Hpa. rewrite Forall_forall in *.
    eapply parses_bind; [apply IHt; auto; lia|].
    eapply parses_bind; [now apply parses_compress|].
    apply parses_bind_ret. apply parses_repeat_map; [unfold len; lia|].
    intros x Hx. apply H; auto.
    assert (depth x <= list_max (map depth args))%nat by (apply list_max_le, in_map, Hx). lia.
  - apply parses_bind_ret. apply IHt; auto; lia.
Qed.

Lemma parses_type p t : type_ok t -> plain t = true ->
  parses (read_element_type p) (enc_type t) (raw_type t).
Proof.
  intros Ho Hp pre rest Hs. unfold read_element_type. apply parses_type_f; auto.
  pose proof (depth_length t). cbn [rdata]. rewrite !app_length. lia.
Qed.

(** Decoding fails on a type that has a function pointer or modifier inside. *)
Lemma rejects_repeat {A X} (m : M reader A) (enc : X -> list byte) (dec : X -> A) (good : X -> bool) l :
  (forall x, In x l -> good x = true -> parses m (enc x) (dec x)) ->
  (forall x, In x l -> good x = false -> rejects m (enc x)) ->
  forallb good l = false ->
  rejects (repeat_m (List.length l) m) (concat (map enc l)).
Proof.
  intros H1 H2. induction l as [|x l IH]; [discriminate|]. cbn [forallb map concat List.length repeat_m].
  intro H. destruct (good x) eqn:G.
  - eapply rejects_bind_r; [apply H1; [left; auto|exact G]|].
    rewrite <- (app_nil_r (concat (map enc l))). apply rejects_bind_l. apply IH; auto.
    + intros; apply H1; auto. now right.
    + intros; apply H2; auto. now right.
  - apply rejects_bind_l. apply H2; auto. now left.
Qed.

Lemma rejects_bind_l0 {A B} (m : M reader A) (k : A -> M reader B) bs :
  rejects m bs -> rejects (bind m k) bs.
Proof. intro H. rewrite <- (app_nil_r bs). now apply rejects_bind_l. Qed.

Lemma rejects_type_f p : forall t f, type_ok t -> plain t = false -> (depth t < f)%nat ->
  rejects (element_type_f f p) (enc_type t).
Proof.
  induction t using sig_type_ind'; intros f Ho Hp Hf; (destruct f as [|f]; [lia|]);
    cbn [element_type_f enc_type raw_type depth type_ok plain] in *; try discriminate;
    apply rd1_byte_rej; cbn [bn].
  - apply rejects_bind_l0. apply IHt; auto; lia.
  - apply rejects_bind_l0. apply IHt; auto; lia.
  - destruct Ho. apply rejects_bind_l. apply IHt; auto; lia.
  - destruct Ho as (Ho & Hl & Ha).
    rewrite fold_and_Forall in Ha. rewrite Forall_forall in *.
    destruct (plain t) eqn:Pt.
    + cbn in Hp. eapply rejects_bind_r; [apply parses_type_f; auto; lia|].
      eapply rejects_bind_r; [now apply parses_compress|].
      apply rejects_bind_l0. replace (N.to_nat (len args)) with (List.length args) by (unfold len; lia).
      assert (D : forall x, In x args -> (depth x < f)%nat).
      { intros x Hx. assert (depth x <= list_max (map depth args))%nat by (apply list_max_le, in_map, Hx). lia. }
      eapply rejects_repeat with (good := plain); [| |exact Hp].
      * intros x Hx Gx. apply parses_type_f; auto.
      * intros x Hx Gx. apply H; auto.
    + apply rejects_bind_l. apply IHt; auto; lia.
  - apply rejects_bind_l0. apply IHt; auto; lia.
  - apply rejects_fail.
  - destruct b; apply rejects_fail.
Qed.

Lemma rejects_type p t : type_ok t -> plain t = false ->
  rejects (read_element_type p) (enc_type t).
Proof.
  intros Ho Hp pre rest Hs. unfold read_element_type. apply rejects_type_f; auto.
  pose proof (depth_length t). cbn [rdata]. rewrite !app_length. lia.
Qed.

Lemma raw_type_exact : forall t, type_ok t -> plain t = true ->
  (raw_type t = api_type t <-> zero_based t = true).
Proof.
  induction t using sig_type_ind'; cbn [type_ok plain raw_type api_type zero_based];
    intros Ho Hp; try discriminate; try (split; reflexivity).
  - rewrite <- IHt by auto. split; [congruence|intros ->; auto].
  - rewrite <- IHt by auto. split; [congruence|intros ->; auto].
  - destruct Ho as [Ho Hs]. rewrite andb_true_iff, <- IHt, <- raw_shape_exact by auto.
    split; [intro E; split; congruence|intros [-> ->]; auto].
  - destruct Ho as (Ho & _ & Ha). apply andb_true_iff in Hp as [Hp Hpa].
    rewrite fold_and_Forall in Ha. rewrite andb_true_iff, <- IHt by auto.
    assert (E : map raw_type args = map api_type args <-> forallb zero_based args = true).
    { clear - H Ha Hpa. induction H as [|x l Hx _ IH]; [split; reflexivity|].
      inversion Ha; subst. cbn [map forallb] in *. apply andb_true_iff in Hpa as [? ?].
      rewrite andb_true_iff, <- Hx, <- IH by auto. split; [intro E; split; congruence|intros [-> ->]; auto]. }
    rewrite <- E. split; [intro E'; split; congruence|intros [-> ->]; auto].
  - rewrite <- IHt by auto. split; [congruence|intros ->; auto].
Qed.

Definition faithful (t : sig_type) : Prop := type_ok t /\ plain t = true /\ zero_based t = true.

Lemma parses_faithful p t : faithful t -> parses (read_element_type p) (enc_type t) (api_type t).
Proof.
  intros (H1 & H2 & H3). rewrite <- (proj2 (raw_type_exact t H1 H2) H3). now apply parses_type.
Qed.

Lemma parses_types p l : Forall faithful l ->
  parses (repeat_m (N.to_nat (len l)) (read_element_type p)) (concat (map enc_type l)) (map api_type l).
Proof.
  intro H. apply parses_repeat_map; [unfold len; lia|].
  intros x Hx. apply parses_faithful. rewrite Forall_forall in H. auto.
Qed.

Lemma parses_type_exact p t : type_ok t -> slice_ok (enc_type t) ->
  (parses (read_element_type p) (enc_type t) (api_type t) <-> plain t = true /\ zero_based t = true).
Proof.
  intros Ho Hs. split; [|intros [? ?]; apply parses_faithful; repeat split; auto].
  intro H. destruct (plain t) eqn:Pt.
  - split; auto. apply raw_type_exact; auto.
    eapply parses_unique; [exact Hs|now apply parses_type|exact H].
  - exfalso. eapply parses_not_rejects; [exact Hs|exact H|now apply rejects_type].
Qed.

(** ** Signatures *)

Lemma rd1_parses {A} p b (k : N -> M reader A) bs a :
  parses (k (bn b)) bs a -> parses (bind (rd p 1 blob_eof) k) (b :: bs) a.
Proof.
  intro H. change (b :: bs) with ([b] ++ bs). eapply parses_bind; [|exact H].
  replace (bn b) with (le_dec [b]) by (cbn [le_dec]; lia). now apply parses_rd_bytes.
Qed.

Definition lead_byte (m : method_sig) : N :=
  flag (ms_has_this m) 0x20 + flag (ms_explicit m) 0x40 + flag (ms_is_vararg m) 0x5 +
  match ms_generic m with Some _ => 0x10 | None => 0 end.

Lemma lead_bits m :
  bn (nb (lead_byte m)) = lead_byte m /\
  has (lead_byte m) 0x20 = ms_has_this m /\ has (lead_byte m) 0x40 = ms_explicit m /\
  has (lead_byte m) 0x5 = ms_is_vararg m /\
  has (lead_byte m) 0x10 = match ms_generic m with Some _ => true | None => false end.
Proof.
  unfold lead_byte. destruct (ms_has_this m), (ms_explicit m), (ms_is_vararg m), (ms_generic m);
    repeat split; reflexivity.
Qed.

Lemma parses_method_sig p m : method_sig_ok m -> ms_extra m = [] ->
  faithful (ms_result m) -> Forall faithful (ms_args m) ->
  parses (read_method_signature p) (enc_method_sig m) (api_method_sig m).
Proof.
  intros (H1 & H2 & H3 & H4 & H5) He Hr Ha. unfold read_method_signature, enc_method_sig, api_method_sig.
  rewrite He in *. rewrite len_nil, N.add_0_r, app_nil_r in *. rewrite app_nil_r.
  apply rd1_parses. fold (lead_byte m). destruct (lead_bits m) as (-> & -> & -> & -> & ->).
  eapply parses_bind with (a := match ms_generic m with Some n => n | None => 0 end).
  { destruct (ms_generic m); [now apply parses_compress|apply parses_ret]. }
  eapply parses_bind; [apply parses_compress; lia|].
  eapply parses_bind; [now apply parses_faithful|].
  apply parses_bind_ret. now apply parses_types.
Qed.

(** A call site with variable arguments loses its last argument. *)
Definition api_call_site (m : method_sig) : method_signature := {|
  sg_instance := ms_has_this m; sg_explicit_this := ms_explicit m;
  sg_vararg := ms_is_vararg m;
  sg_generic_param_count := match ms_generic m with Some n => n | None => 0 end;
  sg_return_type := api_type (ms_result m);
  sg_params := map api_type (ms_args m) ++ EVarargSentinel :: map api_type (removelast (ms_extra m)) |}.

Lemma parses_prefix {A} (m : M reader A) bs1 bs2 a pre rest :
  parses m bs1 a -> slice_ok (pre ++ (bs1 ++ bs2) ++ rest) ->
  m (mkReader (pre ++ (bs1 ++ bs2) ++ rest) (len pre)) =
  Ok a (mkReader (pre ++ (bs1 ++ bs2) ++ rest) (len pre + len bs1)).
Proof. intros H Hs. rewrite <- app_assoc in *. now apply H. Qed.

Lemma call_site_run p m : method_sig_ok m -> ms_extra m <> [] ->
  faithful (ms_result m) -> Forall faithful (ms_args m) -> Forall faithful (ms_extra m) ->
  slice_ok (enc_method_sig m) ->
  exists pos, read_method_signature p (mkReader (enc_method_sig m) 0) =
              Ok (api_call_site m) (mkReader (enc_method_sig m) pos) /\
              pos < len (enc_method_sig m).
Proof.
  intros (H1 & H2 & H3 & H4 & H5) He Hr Ha Hx Hs.
  destruct (exists_last He) as (xs & x & Ex).
  set (hd := nb (lead_byte m) ::
    match ms_generic m with Some n => compress n | None => [] end ++
    compress (len (ms_args m) + len (ms_extra m)) ++ enc_type (ms_result m) ++
    concat (map enc_type (ms_args m ++ TSimple PSentinel :: xs))).
  assert (E : enc_method_sig m = hd ++ enc_type x).
  { unfold hd, enc_method_sig. fold (lead_byte m). cbn [app]. f_equal.
    rewrite <- !app_assoc. do 3 f_equal.
    rewrite map_app, concat_app, <- app_assoc. f_equal.
    rewrite Ex. destruct xs as [|y ys]; cbn [map concat enc_type app];
      rewrite ?map_app, ?concat_app, <- ?app_assoc; cbn [map concat app]; rewrite ?app_nil_r; reflexivity. }
  assert (P : parses (read_method_signature p) hd (api_call_site m)).
  { unfold hd, read_method_signature, api_call_site.
    apply rd1_parses. destruct (lead_bits m) as (-> & -> & -> & -> & ->).
    eapply parses_bind with (a := match ms_generic m with Some n => n | None => 0 end).
    { destruct (ms_generic m); [now apply parses_compress|apply parses_ret]. }
    eapply parses_bind; [apply parses_compress; lia|].
    eapply parses_bind; [now apply parses_faithful|].
    replace (map api_type (ms_args m) ++ EVarargSentinel :: map api_type (removelast (ms_extra m)))
      with (map api_type (ms_args m ++ TSimple PSentinel :: xs)).
    2:{ rewrite map_app. cbn. rewrite Ex, removelast_last. reflexivity. }
    replace (len (ms_args m) + len (ms_extra m)) with (len (ms_args m ++ TSimple PSentinel :: xs)).
    2:{ rewrite Ex. slen. lia. }
    apply (parses_bind_ret _ (fun ps => {| sg_instance := ms_has_this m;
      sg_explicit_this := ms_explicit m; sg_vararg := ms_is_vararg m;
      sg_generic_param_count := match ms_generic m with Some n => n | None => 0 end;
      sg_return_type := api_type (ms_result m); sg_params := ps |})).
    apply parses_types. apply Forall_app. split; auto. constructor; [repeat split|].
    rewrite Ex in Hx. apply Forall_app in Hx. tauto. }
  exists (len hd). rewrite E in *. split.
  - pose proof (parses_prefix _ hd (enc_type x) _ [] [] P) as R. rewrite app_nil_r in R.
    cbn [app] in R. rewrite len_nil in R. apply R. exact Hs.
  - rewrite len_app. assert (1 <= len (enc_type x)); [|lia].
    destruct x; cbn [enc_type]; rewrite len_cons; lia.
Qed.

Lemma head_plain t b bs : plain t = true -> enc_type t = b :: bs -> bn b <> 0x1f /\ bn b <> 0x20.
Proof.
  destruct t; cbn [plain enc_type]; try discriminate; intros _ E;
    injection E as <- <-; try (split; discriminate).
  destruct s; split; discriminate.
Qed.

Lemma parses_field_sig p t : faithful t ->
  parses (read_field_signature p) (enc_field_sig t) (api_type t).
Proof.
  intro H. unfold read_field_signature, enc_field_sig. apply rd1_parses. cbn [bn].
  change (bn x06) with 6. cbn [N.eqb Pos.eqb negb].
  pose proof (parses_faithful p t H) as P. destruct H as (_ & H & _).
  destruct (enc_type t) as [|b bs] eqn:E; [destruct t; discriminate|].
  destruct (head_plain t b bs H E) as [N1 N2].
  apply parses_peek1. destruct (N.eqb_spec (bn b) 0x1f); [easy|].
  destruct (N.eqb_spec (bn b) 0x20); [easy|]. exact P.
Qed.

Lemma field_sig_panics p b rest : slice_ok (x06 :: b :: rest) -> bn b = 0x1f \/ bn b = 0x20 ->
  exists w, read_field_signature p (mkReader (x06 :: b :: rest) 0) = Panic w.
Proof.
  intros Hs Hb. unfold read_field_signature.
  pose proof (parses_rd_bytes p 1 blob_eof [x06] eq_refl [] (b :: rest) Hs) as R.
  cbn [app] in R. rewrite len_nil in R. unfold bind at 1. rewrite R.
  change (le_dec [x06]) with 6. cbn [N.eqb Pos.eqb negb]. unfold bind.
  change (x06 :: b :: rest) with ([x06] ++ b :: rest).
  change (0 + len [x06]) with (len [x06]). rewrite peek1_at by exact Hs.
  destruct Hb as [-> | ->]; cbn; eexists; reflexivity.
Qed.

Lemma parses_property_sig p inst t args : faithful t -> Forall faithful args ->
  len args < 2 ^ 29 ->
  parses (read_property_signature p) (enc_property_sig inst t args)
    {| ps_instance := inst; ps_return_type := api_type t; ps_params := map api_type args |}.
Proof.
  intros H1 H2 H3. unfold read_property_signature, enc_property_sig. apply rd1_parses.
  rewrite bn_nb_small by (destruct inst; cbn; lia).
  replace (has (0x8 + flag inst 0x20) 0x8) with true by (destruct inst; reflexivity).
  replace (has (0x8 + flag inst 0x20) 0x20) with inst by (destruct inst; reflexivity).
  cbn [negb].
  eapply parses_bind; [now apply parses_compress|].
  eapply parses_bind; [now apply parses_faithful|].
  apply parses_bind_ret. now apply parses_types.
Qed.

Lemma parses_method_inst p args : Forall faithful args -> len args < 2 ^ 29 ->
  parses (read_method_spec_sig p) (enc_method_inst args) (map api_type args).
Proof.
  intros H1 H2. unfold read_method_spec_sig, enc_method_inst. apply rd1_parses.
  change (bn x0a) with 10. cbn [N.eqb Pos.eqb negb].
  eapply parses_bind; [now apply parses_compress|]. now apply parses_types.
Qed.

(** ** Totality of the decoders *)

(** [total] restricted to positions with at most [k] bytes left. *)
Definition total_below {A} (k : nat) (m : M reader A) : Prop :=
  forall r, in_bounds r -> len (rdata r) <= rpos r + N.of_nat k ->
    match m r with
    | Ok _ r' | Err _ r' =>
        rdata r' = rdata r /\ rpos r <= rpos r' /\ rpos r' <= len (rdata r)
    | _ => False
    end.

Lemma tb_total {A} k (m : M reader A) : total m -> total_below k m.
Proof. intros H r Hr _. exact (H r Hr). Qed.
Lemma tb_bind {A B} k (m : M reader A) (f : A -> M reader B) :
  total_below k m -> (forall a, total_below k (f a)) -> total_below k (bind m f).
Proof.
  intros H1 H2 r Hr Hk. unfold bind. specialize (H1 r Hr Hk). destruct (m r) as [a r'|e r'| | |]; auto.
  destruct H1 as (E & L1 & L2). destruct Hr as [Hs Hb].
  assert (in_bounds r') as Hr' by (split; rewrite E; auto).
  specialize (H2 a r' Hr'). rewrite E in *. specialize (H2 ltac:(lia)).
  destruct (f a r') as [b r''|e r''| | |]; auto; destruct H2 as (E2 & ? & ?); repeat split; auto; try lia.
Qed.
Lemma tb_repeat {A} k n (m : M reader A) : total_below k m -> total_below k (repeat_m n m).
Proof.
  intro H. induction n; cbn [repeat_m].
  - apply tb_total, total_ret.
  - apply tb_bind; auto. intro. apply tb_bind; auto. intro. apply tb_total, total_ret.
Qed.
Lemma tb_rd1 {A} p k (f : N -> M reader A) :
  (forall b, total_below k (f b)) -> total_below (S k) (bind (rd p 1 blob_eof) f).
Proof.
  intros H r Hr Hk. destruct Hr as [Hs Hb]. unfold bind, rd, bind.
  assert (S2 := Hs). unfold slice_ok in S2. rewrite pow63 in S2.
  destruct (N.le_gt_cases (rpos r + 1) (len (rdata r))).
  - rewrite read_ok by auto. cbn [ret].
    set (b := le_dec _). set (r1 := mkReader _ _).
    specialize (H b r1). unfold r1 in H at 1 2 3. cbn [rdata rpos] in H.
    specialize (H ltac:(split; auto) ltac:(lia)).
    destruct (f b r1) as [x r''|e r''| | |]; auto; unfold r1 in H; cbn [rdata rpos] in H;
      destruct H as (? & ? & ?); repeat split; auto; lia.
  - rewrite read_none by (auto; rewrite ?pow64; lia). cbn. repeat split; lia.
Qed.

Lemma total_named p : total (read_type_def_or_ref p).
Proof.
  apply total_bind; [apply total_rcu|]. intro v.
  set (tag := N.land v 3). set (ix := N.shiftr _ _). clearbody tag ix. cbv zeta.
  destruct tag as [|[q|[q|q|]|]]; try apply total_ret; apply total_fail.
Qed.
Lemma total_shape p : total (read_array_shape p).
Proof.
  repeat (apply total_bind; [first [apply total_rcu | apply total_repeat, total_rcu]|intro]).
  apply total_ret.
Qed.

Lemma total_type_f p : forall k, total_below k (element_type_f (S k) p).
Proof.
  induction k as [|k IH].
  - intros r [Hs Hb] Hk. cbn [element_type_f]. unfold bind, rd, bind.
    rewrite read_none; [cbn; repeat split; lia| |]; unfold slice_ok in Hs; rewrite ?pow63, ?pow64 in *; lia.
  - set (f := S k) in *. cbn [element_type_f].
    apply tb_rd1. intro b.
    do 7 (try (destruct b as [|b]; [|..]); try (destruct b as [b|b|])).
    all: try apply tb_total, total_fail; try apply tb_total, total_ret.
    all: repeat (apply tb_bind; [first [exact IH | apply tb_total, total_named
           | apply tb_total, total_rcu | apply tb_total, total_shape
           | apply tb_repeat; exact IH]|intro]); apply tb_total, total_ret.
Qed.

Lemma tb_fuel p : forall f k, (k < f)%nat -> total_below k (element_type_f f p).
Proof.
  intros f k Hk r Hr Hl. destruct f as [|f]; [lia|]. apply (total_type_f p f r Hr). lia.
Qed.

Lemma total_type p : total (read_element_type p).
Proof.
  intros r Hr. unfold read_element_type.
  apply (tb_fuel p (S (List.length (rdata r))) (List.length (rdata r))); auto.
  unfold len. lia.
Qed.

Lemma total_method_sig p : total (read_method_signature p).
Proof.
  apply total_bind; [apply total_rd; lia|intro]. cbv zeta.
  apply total_bind; [destruct (has a 16); [apply total_rcu|apply total_ret]|intro].
  repeat (apply total_bind; [first [apply total_rcu | apply total_type | apply total_repeat, total_type]|intro]).
  apply total_ret.
Qed.
Lemma total_property_sig p : total (read_property_signature p).
Proof.
  apply total_bind; [apply total_rd; lia|intro].
  destruct (negb (has a 8)); [apply total_fail|]. cbv zeta.
  repeat (apply total_bind; [first [apply total_rcu | apply total_type | apply total_repeat, total_type]|intro]).
  apply total_ret.
Qed.
Lemma total_method_inst p : total (read_method_spec_sig p).
Proof.
  apply total_bind; [apply total_rd; lia|intro].
  destruct (negb (a =? 10)); [apply total_fail|].
  apply total_bind; [apply total_rcu|intro]. apply total_repeat, total_type.
Qed.

Lemma field_sig_run p d : slice_ok d ->
  (forall b rest, d = x06 :: b :: rest -> bn b <> 0x1f /\ bn b <> 0x20) ->
  match read_field_signature p (mkReader d 0) with
  | Ok _ r' | Err _ r' => rdata r' = d /\ rpos r' <= len d
  | _ => False
  end.
Proof.
  intros Hs H. unfold read_field_signature.
  destruct d as [|b0 d].
  { unfold bind, rd, bind. rewrite read_none by (cbn [rdata rpos]; rewrite ?pow64; slen; lia). cbn. split; [auto|lia]. }
  pose proof (parses_rd_bytes p 1 blob_eof [b0] eq_refl [] d Hs) as R.
  cbn [app] in R. rewrite len_nil in R. unfold bind at 1. rewrite R.
  replace (le_dec [b0]) with (bn b0) by (cbn [le_dec]; lia).
  destruct (N.eqb_spec (bn b0) 6) as [E|E]; cbn [negb].
  2:{ cbn [fail rdata rpos]. split; auto. rewrite len_cons. unfold len. cbn [List.length]. lia. }
  assert (b0 = x06) as -> by (apply bn_inj; exact E).
  change (0 + len [x06]) with 1.
  destruct d as [|b d].
  { unfold bind, pk, bind. rewrite peek_none by (cbn [rdata rpos]; rewrite ?pow64; slen; lia). cbn [fail rdata rpos]. split; auto. unfold len. cbn [List.length]. lia. }
  unfold bind. change (x06 :: b :: d) with ([x06] ++ b :: d) at 1.
  change 1 with (len [x06]) at 2. rewrite peek1_at by exact Hs.
  destruct (H b d eq_refl) as [N1 N2].
  destruct (N.eqb_spec (bn b) 0x1f); [easy|]. destruct (N.eqb_spec (bn b) 0x20); [easy|]. cbn [orb].
  pose proof (total_type p (mkReader ([x06] ++ b :: d) (len [x06]))) as T.
  assert (in_bounds (mkReader ([x06] ++ b :: d) (len [x06]))) as I.
  { split; [exact Hs|]. cbn [rdata rpos]. rewrite len_app. lia. }
  specialize (T I). destruct (read_element_type p _); auto; cbn [rdata rpos] in T; tauto.
Qed.

(** ** Marshalling *)

Lemma parses_scalar p s : parses (read_marshal_scalar p) [native_code s] s.
Proof. unfold read_marshal_scalar. apply rd1_parses. destruct s; apply parses_ret. Qed.

Lemma total_scalar p : total (read_marshal_scalar p).
Proof.
  apply total_bind; [apply total_rd; lia|]. intro b.
  do 7 (try (destruct b as [|b]; [|..]); try (destruct b as [b|b|])).
  all: first [apply total_ret | apply total_fail].
Qed.
Lemma total_try {A} (m : M reader A) : total m -> total (try_m m).
Proof. intros H r Hr. specialize (H r Hr). unfold try_m. destruct (m r); auto. Qed.
Lemma total_advance1 {A} p b (m : M reader A) d pos :
  in_bounds (mkReader d pos) -> pk p 1 blob_eof (mkReader d pos) = Ok b (mkReader d pos) -> pos + 1 <= len d.
Proof.
  intros [Hs Hb] E. cbn [rdata rpos] in *. destruct (N.le_gt_cases (pos + 1) (len d)); auto.
  unfold pk, bind in E. rewrite peek_none in E; [discriminate|cbn; lia|].
  unfold slice_ok in Hs. rewrite pow63 in Hs. rewrite pow64. cbn. lia.
Qed.

Lemma total_marshal p : total (read_marshal_descriptor p).
Proof.
  intros r Hr. unfold read_marshal_descriptor, bind at 1.
  pose proof (total_pk p 1 blob_eof ltac:(lia) r Hr) as T.
  destruct (pk p 1 blob_eof r) as [b r'|e r'| | |] eqn:E; auto.
  assert (r' = r) as ->.
  { unfold pk, bind in E. destruct r as [d pos]. destruct Hr as [Hs Hb]. cbn [rdata rpos] in *.
    assert (S2 := Hs). unfold slice_ok in S2. rewrite pow63 in S2.
    destruct (N.le_gt_cases (pos + 1) (len d)).
    - rewrite peek_ok in E by auto. cbv beta iota delta [ret] in E. congruence.
    - rewrite peek_none in E by (cbn [rdata rpos]; rewrite ?pow64; slen; lia). discriminate. }
  destruct r as [d pos].
  pose proof (@total_advance1 unit p b (ret tt) d pos Hr E) as Hpos.
  destruct (b =? 0x2a).
  - unfold bind at 1. destruct Hr as [Hs Hb]. cbn [rdata rpos] in *.
    assert (S2 := Hs). unfold slice_ok in S2. rewrite pow63 in S2.
    rewrite advance_ok by (cbn [rdata rpos]; rewrite ?pow64; lia). cbn [rdata rpos].
    match goal with |- match ?m (mkReader d (pos + 1)) with _ => _ end =>
      assert (total m) as Tm end.
    { apply total_bind; [apply total_scalar|intro].
      apply total_bind; [apply total_try, total_rcu|intro].
      apply total_bind; [apply total_try, total_rcu|intro]. apply total_ret. }
    specialize (Tm (mkReader d (pos + 1))).
    assert (in_bounds (mkReader d (pos + 1))) as I by (split; auto).
    specialize (Tm I). cbn [rdata rpos] in Tm.
    match goal with |- match ?x with _ => _ end => destruct x end; auto;
      destruct Tm as (? & ? & ?); repeat split; auto; lia.
  - assert (total (s <- read_marshal_scalar p;; ret (MdScalar s))) as Tm.
    { apply total_bind; [apply total_scalar|intro; apply total_ret]. }
    exact (Tm _ Hr).
Qed.

Lemma try_some p n pre rest : n < 2 ^ 29 -> slice_ok (pre ++ compress n ++ rest) ->
  try_m (read_compressed_u32 p) (mkReader (pre ++ compress n ++ rest) (len pre)) =
  Ok (Some n) (mkReader (pre ++ compress n ++ rest) (len pre + len (compress n))).
Proof. intros H Hs. unfold try_m. now rewrite (parses_compress p n H pre rest Hs). Qed.
Lemma try_none p d : slice_ok d ->
  try_m (read_compressed_u32 p) (mkReader d (len d)) = Ok None (mkReader d (len d)).
Proof.
  intro Hs. unfold slice_ok in Hs. rewrite pow63 in Hs.
  unfold try_m, read_compressed_u32, pk, bind. rewrite peek_none by (cbn [rdata rpos]; rewrite ?pow64; slen; lia).
  reflexivity.
Qed.
Lemma some_nonzero_given n : some_nonzero (Some n) = given n.
Proof. unfold some_nonzero, given. destruct n; reflexivity. Qed.

Lemma native_code_not_array s : bn (native_code s) <> 0x2a.
Proof. destruct s; discriminate. Qed.

Lemma marshal_run p m : marshal_ok m ->
  read_marshal_descriptor p (mkReader (enc_marshal m) 0) =
  Ok (api_marshal m) (mkReader (enc_marshal m) (len (enc_marshal m))).
Proof.
  intro H.
  assert (Hs : slice_ok (enc_marshal m)).
  { assert (C : forall n, len (compress n) <= 4).
    { intro n. unfold compress. destruct (n <? 0x80), (n <? 0x4000); unfold len; cbn; lia. }
    unfold slice_ok. rewrite pow63. destruct m; cbn [enc_marshal]; slen;
      repeat match goal with |- context [compress ?n] => pose proof (C n); generalize dependent (len (compress n)); intros end; lia. }
  assert (A : forall s tl, enc_marshal m = [x2a; native_code s] ++ tl ->
    read_marshal_descriptor p (mkReader (enc_marshal m) 0) =
    (a <- try_m (read_compressed_u32 p) ;; b <- try_m (read_compressed_u32 p) ;;
     ret (MdArray s (some_nonzero a) (some_nonzero b)))
       (mkReader (enc_marshal m) 2)).
  { intros s tl E. rewrite E in *. unfold read_marshal_descriptor.
    cbn [app] in *. unfold bind at 1.
    pose proof (peek1_at p blob_eof x2a [] (native_code s :: tl) Hs) as P. cbn [app] in P.
    rewrite len_nil in P. rewrite P. change (bn x2a =? 0x2a) with true. cbn match.
    unfold bind at 1. rewrite advance_ok by (cbn [rdata rpos]; rewrite ?pow64; lia). cbn [rdata rpos].
    unfold bind at 1.
    pose proof (parses_scalar p s [x2a] tl Hs) as Q. cbn [app] in Q.
    change (len [x2a]) with 1 in Q. change (0 + 1) with 1. rewrite Q. reflexivity. }
  destruct m as [s|s|s a|s a b]; cbn [api_marshal].
  - cbn [enc_marshal] in *. unfold read_marshal_descriptor, bind at 1.
    pose proof (peek1_at p blob_eof (native_code s) [] [] Hs) as P. cbn [app] in P.
    rewrite len_nil in P. rewrite P.
    destruct (N.eqb_spec (bn (native_code s)) 0x2a) as [E|E]; [now apply native_code_not_array in E|].
    pose proof (parses_scalar p s [] [] Hs) as Q. cbn [app] in Q. rewrite len_nil in Q.
    unfold bind. rewrite Q. reflexivity.
  - rewrite (A s [] eq_refl). cbn [enc_marshal] in *.
    unfold bind. change 2 with (len [x2a; native_code s]). rewrite !try_none by exact Hs. reflexivity.
  - rewrite (A s _ eq_refl). cbn [enc_marshal marshal_ok] in *.
    unfold bind. change 2 with (len [x2a; native_code s]).
    pose proof (try_some p a [x2a; native_code s] [] H) as T. rewrite app_nil_r in T.
    rewrite T by exact Hs. rewrite <- len_app. rewrite try_none by exact Hs.
    rewrite some_nonzero_given. reflexivity.
  - rewrite (A s _ eq_refl). cbn [enc_marshal marshal_ok] in *. destruct H as [Ha Hb].
    unfold bind. change 2 with (len [x2a; native_code s]).
    rewrite (try_some p a [x2a; native_code s] (compress b) Ha Hs). rewrite <- len_app.
    pose proof (try_some p b ([x2a; native_code s] ++ compress a) [] Hb) as T.
    rewrite app_nil_r, <- app_assoc in T. rewrite T by exact Hs.
    rewrite !some_nonzero_given, <- !len_app, <- !app_assoc. reflexivity.
Qed.

(** ** Blob readers *)

Lemma blob_reader_at p n prefix blob post heap pre :
  parses (read_compressed_u32 p) prefix n -> n = len blob ->
  heap = pre ++ prefix ++ blob ++ post -> slice_ok heap ->
  blob_heap_reader p heap (len pre) = Ok (mkReader blob 0) tt.
Proof.
  intros P -> -> Hs. unfold blob_heap_reader.
  destruct (N.ltb_spec (len (pre ++ prefix ++ blob ++ post)) (len pre)) as [C|_]; [slen; lia|].
  replace (skipn (N.to_nat (len pre)) (pre ++ prefix ++ blob ++ post)) with (prefix ++ blob ++ post).
  2:{ unfold len. rewrite Nat2N.id, skipn_app, skipn_all, Nat.sub_diag. reflexivity. }
  unfold blob_reader_new.
  specialize (P [] (blob ++ post)). cbn [app] in P. rewrite len_nil in P. rewrite P.
  2:{ unfold slice_ok in *. rewrite pow63 in *. slen. lia. }
  cbn [rpos]. destruct (N.ltb_spec (len (prefix ++ blob ++ post)) (0 + len prefix + len blob)) as [C|_].
  { slen. lia. }
  rewrite N.add_0_l, sub_list_app. reflexivity.
Qed.

Lemma blob_reader_inv p heap h r : slice_ok heap -> blob_heap_reader p heap h = Ok r tt ->
  exists pre prefix blob post,
    heap = pre ++ prefix ++ blob ++ post /\ len pre = h /\ r = mkReader blob 0 /\
    some_form prefix (len blob).
Proof.
  intros Hs. unfold blob_heap_reader.
  destruct (N.ltb_spec (len heap) h) as [C|L]; [discriminate|].
  destruct (split_at1 h heap L) as (pre & tl & -> & <-).
  replace (skipn (N.to_nat (len pre)) (pre ++ tl)) with tl.
  2:{ unfold len. rewrite Nat2N.id, skipn_app, skipn_all, Nat.sub_diag. reflexivity. }
  unfold blob_reader_new.
  assert (I : in_bounds (mkReader tl 0)).
  { split; cbn [rdata rpos]; [|lia]. unfold slice_ok in *. rewrite pow63 in *. slen. lia. }
  pose proof (rcu_run p _ I) as R. cbn [rdata rpos] in R.
  destruct (read_compressed_u32 p (mkReader tl 0)) as [n r'| | | |] eqn:E; try discriminate.
  destruct R as (Ed & R1 & R2 & R3 & form & (p0 & q0 & Eform & Lz) & R4 & R5).
  destruct (N.ltb_spec (len tl) (rpos r' + n)) as [C|L2]; [discriminate|].
  destruct p0; [|rewrite len_cons in Lz; lia]. cbn [app] in Eform. clear Ed. subst tl.
  rewrite N.add_0_l in R5. rewrite R5 in *.
  destruct (split_at1 n q0) as (blob & post & -> & Lb).
  { rewrite len_app in L2. lia. }
  intro H. exists pre, form, blob, post.
  assert (Er : r = mkReader (sub_list (len form) n (form ++ blob ++ post)) 0) by congruence.
  rewrite <- Lb in Er. rewrite sub_list_app in Er.
  rewrite Lb. repeat split; auto; try lia.
Qed.

(** ** UTF-16 *)

Lemma len_units us : len (units_le us) = 2 * len us.
Proof.
  unfold units_le. induction us; [reflexivity|]. cbn [map concat].
  rewrite len_app, len_cons, IHus. slen. lia.
Qed.

Lemma chunks_units us tl : Forall (fun u => u < 2 ^ 16) us ->
  map le_dec (chunks 2 (List.length us) (units_le us ++ tl)) = us.
Proof.
  induction 1 as [|u us Hu _ IH]; [reflexivity|].
  cbn [List.length chunks]. unfold units_le. cbn [map concat]. fold (units_le us).
  rewrite <- app_assoc.
  assert (L : List.length (le_enc 2 u) = 2%nat) by reflexivity.
  destruct (le_enc 2 u) as [|a [|b [|]]] eqn:E; try discriminate L.
  cbn [app firstn skipn map]. rewrite <- E.
  rewrite le_dec_enc by (change (256 ^ N.of_nat 2) with (2 ^ 16); exact Hu). now rewrite IH.
Qed.

Lemma utf16_run p us tl : Forall (fun u => u < 2 ^ 16) us -> len tl < 2 ->
  slice_ok (units_le us ++ tl) ->
  read_utf16_str p (mkReader (units_le us ++ tl) 0) =
  Ok us (mkReader (units_le us ++ tl) (2 * len us)).
Proof.
  intros H Ht Hs. unfold read_utf16_str. cbn [rdata].
  replace (len (units_le us ++ tl) / 2) with (len us) by (slen; rewrite len_units; dlia).
  pose proof (parses_read_array p 2 (len us) (units_le us)) as P.
  rewrite len_units, N.mul_comm in P. specialize (P eq_refl [] tl Hs).
  cbn [app] in P. rewrite len_nil, N.add_0_l, len_units in P.
  unfold bind. rewrite P. cbv beta iota delta [ret].
  replace (N.to_nat (len us)) with (List.length us) by (unfold len; lia).
  rewrite <- (app_nil_r (units_le us)) at 1. rewrite chunks_units by auto. reflexivity.
Qed.

(** ** The string heap *)

Definition cache_ok (h : strings_heap) : Prop :=
  forall i t, map_get N.eqb i (sh_cache h) = Some t ->
    exists k, nul_position (skipn (N.to_nat i) (sh_data h)) = Some k /\ t = sub_list i k (sh_data h).

Lemma map_get_put_eq {V} i (v : V) m : map_get N.eqb i (map_put i v m) = Some v.
Proof. unfold map_get, map_put. cbn [find fst]. now rewrite N.eqb_refl. Qed.
Lemma map_get_put_ne {V} i j (v : V) m : i <> j -> map_get N.eqb j (map_put i v m) = map_get N.eqb j m.
Proof.
  intro H. unfold map_get, map_put. cbn [find fst]. destruct (N.eqb_spec j i); [congruence|reflexivity].
Qed.

(** What a lookup answers, without the cache. *)
Definition answer (d : list byte) (i : N) : option (list byte) :=
  if len d <? i then None
  else match nul_position (skipn (N.to_nat i) d) with
       | None => None
       | Some k => if utf8_valid (sub_list i k d) then Some (sub_list i k d) else None
       end.

Lemma strings_get_run h i : cache_ok h ->
  exists h', strings_get i h = Ok (answer (sh_data h) i) h' /\ sh_data h' = sh_data h /\ cache_ok h'.
Proof.
  intro C. unfold strings_get, answer. destruct (len (sh_data h) <? i); [eauto|].
  destruct (nul_position _) as [k|] eqn:E; [|eauto]. cbv zeta.
  destruct (utf8_valid _); [|eauto].
  destruct (map_get N.eqb i (sh_cache h)) as [t|] eqn:G.
  - destruct (C i t G) as (k' & E' & ->). rewrite E in E'. injection E' as <-. eauto.
  - eexists. split; [reflexivity|]. split; [reflexivity|].
    intros j t. cbn [sh_cache sh_data]. destruct (N.eq_dec i j) as [<-|N0].
    + rewrite map_get_put_eq. intro T. injection T as <-. eauto.
    + rewrite map_get_put_ne by auto. apply C.
Qed.

Lemma cache_ok_new d : cache_ok (strings_new d).
Proof. intros i t H. discriminate. Qed.

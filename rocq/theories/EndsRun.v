(** The loader, along an order on the names of types: methods, types and whole images. *)
From Coq Require Import NArith Arith Lia String List Bool.
From Coq.Strings Require Import Byte.
From Verif Require Import Base Utf BinaryReader Pe Attributes Tables Blob Metadata Runtime Loader ParseSpec BaseFacts ReaderFacts BlobProofs.
From Verif Require Import SpecBytes SpecUtf SpecPe SpecBlob SpecMetadata SpecRuntime SpecBody SpecTypes SpecLoader SpecLoad SpecEnds RuntimeInv LoaderFacts LoaderRun SoundFacts SoundLoad NeverFacts EndsFacts EndsLoad.
Import ListNotations.
Open Scope N_scope.

(** ** Runs of rows *)

Lemma run_stop p next start c stop : u_sub p 64 next start = Some c -> u_add p 64 start c = Some stop -> start < stop -> stop <= next.
Proof.
  unfold u_sub, u_add. assert (2 ^ 64 <> 0) as Z by discriminate. revert Z. generalize (2 ^ 64). intros B Z.
  destruct (N.leb_spec start next) as [L|L].
  - intros [= <-]. destruct (N.ltb_spec (start + (next - start)) B) as [L2|L2].
    + intros [= <-]. lia.
    + destruct p; [discriminate|]. intros [= <-] _. pose proof (N.mod_le (start + (next - start)) B Z). lia.
  - destruct p; [discriminate|]. intros [= <-].
    destruct (N.le_gt_cases start (B + next)) as [G|G].
    + rewrite (N.mod_small (B + next - start)) by lia.
      destruct (N.ltb_spec (start + (B + next - start)) B) as [L2|L2]; [lia|]. intros [= <-] _.
      replace (start + (B + next - start)) with (next + 1 * B) by lia.
      rewrite N.mod_add by exact Z. now apply N.mod_le.
    + replace (B + next - start) with 0 by lia. rewrite N.mod_0_l by exact Z. rewrite N.add_0_r.
      destruct (N.ltb_spec start B) as [L2|L2]; [lia|]. intros [= <-] H. pose proof (N.mod_le start B Z). lia.
Qed.
Lemma run_stop_last p total start x c stop : total < 2 ^ 32 -> u_sub p 64 start 1 = Some x -> u_sub p 64 total x = Some c ->
  u_add p 64 start c = Some stop -> start < stop -> stop <= total + 1.
Proof.
  intros T Ex Ec Es L.
  destruct (N.le_gt_cases 1 start) as [G|G].
  - assert (x = start - 1) as ->.
    { unfold u_sub in Ex. apply N.leb_le in G. rewrite G in Ex. now injection Ex as <-. }
    assert (u_sub p 64 (total + 1) start = Some c) as Ec'.
    { rewrite <- Ec. unfold u_sub. generalize (2 ^ 64). intro B.
      replace (start <=? total + 1) with (start - 1 <=? total) by (destruct (N.leb_spec (start - 1) total), (N.leb_spec start (total + 1)); lia).
      replace (total + 1 - start) with (total - (start - 1)) by lia.
      replace (B + (total + 1) - start) with (B + total - (start - 1)) by lia. reflexivity. }
    exact (run_stop _ _ _ _ _ Ec' Es L).
  - assert (start = 0) as -> by lia. revert Ex Ec Es. unfold u_sub, u_add.
    assert (total + 2 < 2 ^ 64) as Z by (eapply N.lt_trans with (m := 2 ^ 32 + 2); [lia|reflexivity]).
    revert Z. generalize (2 ^ 64). intros B Z. change (1 <=? 0) with false. cbv iota. destruct p; [discriminate|].
    intros [= <-]. replace (B + 0 - 1) with (B - 1) by lia. rewrite (N.mod_small (B - 1)) by lia.
    destruct (N.leb_spec (B - 1) total) as [H|H]; [lia|]. intros [= <-].
    replace (B + total - (B - 1)) with (total + 1) by lia. rewrite (N.mod_small (total + 1)) by lia. rewrite N.add_0_l.
    destruct (N.ltb_spec (total + 1) B) as [H2|H2]; [|lia]. intros [= <-]. lia.
Qed.
Lemma rows_in {A} (rows : list A) x y k r : x <= k -> k < y -> row_of rows k r ->
  In r (firstn (N.to_nat (y - x)) (skipn (N.to_nat (x - 1)) rows)).
Proof.
  intros L1 L2 [G E]. apply nth_error_In with (n := (N.to_nat (k - 1) - N.to_nat (x - 1))%nat).
  assert (nth_error (skipn (N.to_nat (x - 1)) rows) (N.to_nat (k - 1) - N.to_nat (x - 1)) = Some r) as H.
  { assert (forall (l : list A) a b, (a <= b)%nat -> nth_error (skipn a l) (b - a) = nth_error l b) as K.
    { induction l as [|z l IH]; intros [|a] [|b] H; cbn; try reflexivity; try lia.
      - destruct (b - a)%nat; reflexivity.
      - apply IH. lia. }
    rewrite K; [exact E|lia]. }
  assert (forall (l : list A) n q z, nth_error l q = Some z -> (q < n)%nat -> nth_error (firstn n l) q = Some z) as K.
  { induction l as [|w l IH]; intros [|n] [|q] z Hq Hl; cbn in *; try lia; try discriminate; auto. apply IH; [exact Hq|lia]. }
  apply K; [exact H|]. lia.
Qed.

(** ** Files *)

Lemma resolve_first fs n c : forall paths, resolve_assembly_name fs paths n = Some c ->
  first_there (fun c => fs (fst c) (snd c) <> Missing) (candidates paths n) c.
Proof.
  induction paths as [|d paths IH]; cbn [resolve_assembly_name]; [discriminate|]. unfold candidates. cbn [flat_map].
  destruct (fs d (n ++ bytes_of_string ".dll")) as [| |x] eqn:E; cbn [exists_entry].
  - destruct (fs d (n ++ bytes_of_string ".exe")) as [| |y] eqn:E2; cbn [exists_entry].
    + intro H. destruct (IH H) as (pre & post & E3 & Hc & Hp). exists ((d, n ++ bytes_of_string ".dll") :: (d, n ++ bytes_of_string ".exe") :: pre), post.
      unfold candidates in E3. rewrite E3. split; [reflexivity|]. split; [exact Hc|].
      intros z [<-|[<-|Hz]]; [intro K; now apply K|intro K; now apply K|now apply Hp].
    + intro H. injection H as <-. exists [(d, n ++ bytes_of_string ".dll")], (candidates paths n). split; [reflexivity|].
      split; [intro K; cbn [fst snd] in K; congruence|]. intros z [<-|[]] K. now apply K.
    + intro H. injection H as <-. exists [(d, n ++ bytes_of_string ".dll")], (candidates paths n). split; [reflexivity|].
      split; [intro K; cbn [fst snd] in K; congruence|]. intros z [<-|[]] K. now apply K.
  - intro H. injection H as <-. exists [], ((d, n ++ bytes_of_string ".exe") :: candidates paths n). split; [reflexivity|].
    split; [intro K; cbn [fst snd] in K; congruence|]. intros z [].
  - intro H. injection H as <-. exists [], ((d, n ++ bytes_of_string ".exe") :: candidates paths n). split; [reflexivity|].
    split; [intro K; cbn [fst snd] in K; congruence|]. intros z [].
Qed.

(** ** Sizes of tables *)

Lemma tables_read p E r tb r' : read_tables p E r = Ok tb r' ->
  List.length (tb_type_def tb) = N.to_nat (at_table 0 (row_counts E) TTypeDef) /\
  List.length (tb_field tb) = N.to_nat (at_table 0 (row_counts E) TField).
Proof.
  intro R. unfold read_tables in R. apply bind_inv_ok in R as (a & r2 & _ & R). apply bind_inv_ok in R as (trs & r3 & _ & R).
  apply bind_inv_ok in R as (tds & r4 & Rt & R). apply bind_inv_ok in R as (fls & r5 & Rf & R).
  apply repeat_count in Rt. apply repeat_count in Rf. do 34 (apply bind_inv_ok in R as (? & ? & _ & R)). injection R as <- _. auto.
Qed.
Lemma tables_counted p data md : read_metadata p data tt = Ok md tt ->
  len (tb_type_def (m_tables md)) < 2 ^ 32 /\ len (tb_field (m_tables md)) < 2 ^ 32.
Proof.
  intro E. unfold read_metadata in E. do 18 (apply bind_inv_ok in E as (? & [] & _ & E)).
  apply bind_inv_ok in E as (tb & [] & T & E). injection E as <-. cbn [m_tables].
  unfold on_reader in T. destruct (read_table_stream p (new_reader _)) as [tb' r|? ?|?|?|] eqn:R; try discriminate. injection T as ->.
  unfold read_table_stream in R. do 8 (apply bind_inv_ok in R as (? & ? & _ & R)). apply tables_read in R as [R1 R2].
  unfold len. rewrite R1, R2, !N2Nat.id. split; apply at_table_small; apply counts_small, chunks_small.
Qed.

Create HintDb cm discriminated.

Section Order.
  Variables (top : nat) (o : order).
  Hypothesis O : order_ok top o.
  Notation calm := (calm o).
  Notation fine := (fine o).

  Section Image.
    Variables (p : profile) (md : metadata).
    Hypothesis Z : sized md.
    Hypothesis IO : image_ordered p o md.

    Lemma blob_bounds h r : blob_heap_reader p (m_blob md) h = Ok r tt -> in_bounds r.
    Proof.
      intro E. destruct (blob_reader_inv p (m_blob md) h r (sz_blob _ Z) E) as (pre & prefix & blob & post & Eh & _ & -> & _).
      split; cbn [rdata rpos]; [|lia]. pose proof (sz_blob _ Z) as H. unfold slice_ok in *. rewrite Eh, !len_app in H. lia.
    Qed.
    Lemma lk_signature {A} s h (m : M reader A) : ending m -> looks s (signature_at p md h m) (fun a =>
      exists r r', blob_heap_reader p (m_blob md) h = Ok r tt /\ m r = Ok a r').
    Proof.
      intro E. unfold signature_at. eapply (lk_bind _ _ _ (fun r => blob_heap_reader p (m_blob md) h = Ok r tt)).
      - unfold looks, lift. pose proof (nv_blob_heap_reader p (m_blob md) h) as H. destruct (blob_heap_reader _ _ _) as [r []|? ?|?|?|]; auto; now elim H.
      - intros r Hr. unfold looks, lift, on_reader. specialize (E r (blob_bounds h r Hr)). destruct (m r) as [a r'|? ?|?|?|] eqn:Em; auto.
        split; [reflexivity|]. exists r, r'. auto.
    Qed.
    Lemma cm_signature {A} h (m : M reader A) : ending m -> calm (signature_at p md h m).
    Proof. intro E. apply (cm_looks o _ _ (fun s _ => lk_signature s h m E)). Qed.
    Lemma cm_element e : calm (type_for_element p md e).
    Proof. exact (cm_element top o O p md Z e). Qed.
    Lemma lk_reader {A} s r (m : M reader A) : in_bounds r -> ending m -> looks s (with_reader r m) (fun x => in_bounds (snd x)).
    Proof. intros Hr E. specialize (E r Hr). unfold looks, with_reader. destruct (m r) as [a r'|? ?|?|?|]; auto. Qed.
    Lemma lk_map_err {A} s (m : M vm A) e Q : looks s m Q -> looks s (map_err m e) Q.
    Proof. unfold looks, map_err. destruct (m s); auto. Qed.

    Ltac cm_step :=
      lazymatch goal with
      | |- EndsLoad.calm _ (bind _ _) => apply cm_bind; [|intro]
      | |- EndsLoad.calm _ (ret _) => apply cm_ret
      | |- EndsLoad.calm _ (fail _) => apply cm_fail
      | |- EndsLoad.calm _ (panic _) => apply cm_panic
      | |- EndsLoad.calm _ (unwrap _) => apply cm_unwrap
      | |- EndsLoad.calm _ (ok_or _ _) => apply cm_ok_or
      | |- EndsLoad.calm _ (ovf _) => apply cm_ovf
      | |- EndsLoad.calm _ (the_type _) => apply cm_type
      | |- EndsLoad.calm _ (the_assembly _) => apply cm_assembly
      | |- EndsLoad.calm _ (get_type _) => apply cm_get
      | |- EndsLoad.calm _ (row_at _ _ _) => apply cm_row
      | |- EndsLoad.calm _ (type_for_element _ _ _) => apply cm_element
      | |- EndsLoad.calm _ (map_err _ _) => apply cm_map_err
      | |- EndsLoad.calm _ (unwrap_result _) => apply cm_unwrap_result
      | |- EndsLoad.calm _ (map_m _ _) => apply cm_map_m; intro
      | |- EndsLoad.calm _ (with_reader _ _) => apply cm_with_reader; solve [auto 3 with nv nocore | nv]
      | |- EndsLoad.calm _ (lift _) => apply cm_never; solve [auto 3 with nv nocore | nv]
      | |- EndsLoad.calm _ (let x := ?e in _) => cbv zeta
      | |- EndsLoad.calm _ (match ?x with _ => _ end) => destruct x
      end.
    Ltac cm := repeat first [cm_step | solve [auto 2 with cm nocore]].

    Lemma cm_catch_type tok : calm (catch_type p md tok).
    Proof. unfold catch_type. cm. Qed.
    Hint Resolve cm_catch_type : cm.
    Lemma cm_clause k a b c d e : calm (new_clause p md k a b c d e).
    Proof. unfold new_clause. destruct k; cm. Qed.
    Hint Resolve cm_clause : cm.
    Lemma cm_clauses w1 w2 : forall n r, calm (read_clauses p md w1 w2 n r).
    Proof. induction n as [|n IH]; intro r; cbn [read_clauses]; cm. Qed.
    Hint Resolve cm_clauses : cm.
    Lemma nv_align4 : forall n, never (align4 p n).
    Proof. induction n as [|n IH]; cbn [align4]; repeat first [exact IH | nv_auto | nv_step]. Qed.
    Lemma cm_section r : calm (read_section p md r).
    Proof.
      unfold read_section. apply cm_bind; [apply cm_with_reader, nv_align4|]. intros [? ?].
      cm.
    Qed.
    Hint Resolve cm_section : cm.
    Lemma cm_locals : forall n r, in_bounds r -> calm (read_locals p md n r).
    Proof.
      induction n as [|n IH]; intros r Hr; cbn [read_locals]; [apply cm_ret|]. intro s.
      eapply fs_bind; [apply fs_looks; intro; apply lk_map_err, (lk_reader s r (read_element_type p) Hr), ending_total, total_type|].
      intros [e r'] s' _ (-> & Hr'). cbn [snd] in Hr'. refine (cm_bind o _ _ (cm_element e) _ s). intro t.
      apply cm_bind; [exact (IH r' Hr')|intro]. apply cm_ret.
    Qed.
    Lemma cm_load_locals tok : calm (load_locals p md tok).
    Proof.
      unfold load_locals. destruct (_ =? 0); [apply cm_ret|]. apply cm_bind; [apply cm_row|]. intros row s.
      eapply (fs_bind o _ _ _ (fun r s' => s' = s /\ in_bounds r)).
      { eapply fs_looks. intros _. apply lk_map_err. unfold looks, lift. pose proof (nv_blob_heap_reader p (m_blob md) (ss_signature row)) as H.
        destruct (blob_heap_reader _ _ _) as [r []|? ?|?|?|] eqn:E; auto; try (now elim H). split; [reflexivity|]. exact (blob_bounds _ _ E). }
      intros r s' _ (-> & Hr).
      eapply fs_bind; [apply fs_looks; intro; apply lk_map_err, (lk_reader s r _ Hr), ending_total, total_rd; reflexivity|].
      intros [b r1] s' _ (-> & Hr1). cbn [snd] in Hr1. cbv beta iota. destruct (negb _); [apply cm_fail|].
      eapply fs_bind; [apply fs_looks; intro; apply lk_map_err, (lk_reader s r1 _ Hr1), ending_total, total_rcu|].
      intros [c r2] s' _ (-> & Hr2). cbn [snd] in Hr2. cbv beta iota. now apply cm_locals.
    Qed.
    Hint Resolve cm_load_locals : cm.
    Lemma nv_read_code n : never (read_code p n).
    Proof. unfold read_code. nv. Qed.
    Hint Resolve nv_read_code : nv.
    Lemma cm_body rva : calm (load_body p md rva).
    Proof.
      unfold load_body. cm.
    Qed.
    Hint Resolve cm_body : cm.
    Lemma cm_param_names es : calm (param_type_names p md es).
    Proof. unfold param_type_names. cm. Qed.
    Hint Resolve cm_param_names : cm.
    Lemma cm_params : forall es h, calm (load_params p md h es).
    Proof. induction es as [|e es IH]; intro h; cbn [load_params]; cm. Qed.
    Hint Resolve cm_params : cm.
    Lemma cm_method t i : calm (load_method p md t i).
    Proof.
      assert (H : forall h, calm (signature_at p md h (read_method_signature p))) by (intro; apply cm_signature, ending_total, total_method_sig).
      unfold load_method. cm.
    Qed.
    Hint Resolve cm_method : cm.

    (** ** Types *)

    Lemma fs_field s t i off : fine still s (load_field p md t i off) (fun fi s' => exists row n,
      row_of (tb_field (m_tables md)) i row /\ f_static fi = fa_is_static (fd_attributes row) /\ field_says p md row n /\
      is_named (c_types s') (f_type fi) n).
    Proof.
      unfold load_field. eapply fs_bind; [apply fs_looks; intro; exact (lk_row p s _ i (sz_field _ Z))|].
      intros row s' _ (-> & Hrow).
      eapply fs_bind; [apply fs_looks; intro; apply (lk_unwrap _ _ (fun _ => True)); auto|]. intros n s' _ (-> & _).
      eapply fs_bind; [apply fs_looks; intro; exact (lk_signature s _ _ (ending_field_sig p))|]. intros e s' _ (-> & (r & r' & E1 & E2)).
      eapply fs_bind; [exact (fs_element top o O p md Z e s)|]. intros u s' _ (ty & m & -> & Hm & Hu).
      intro W. split; [exact W|split; [apply still_refl|]]. exists row, m. cbn [f_static f_type].
      split; [exact Hrow|split; [reflexivity|split; [|exact Hu]]]. exists r, r', ty. auto.
    Qed.

    Definition row_type (i : N) (fn : name) : Prop :=
      exists row, row_of (tb_type_def (m_tables md)) (i + 1) row /\ defines md row fn.

    Lemma fs_load_type s a i : fine still s (load_type p md a i) (fun t s' => exists fn, row_type i fn /\ is_named (c_types s') t fn).
    Proof.
      unfold load_type. change (handle_of_position TTypeDef i) with (i + 1).
      eapply fs_bind; [apply fs_looks; intro; exact (lk_row p s _ (i + 1) (sz_def _ Z))|]. intros row s' _ (-> & Hrow).
      eapply fs_bind; [apply fs_looks; intro; apply (lk_unwrap _ _ (fun n => string_at md (td_name row) = Some n)); auto|]. intros n s' _ (-> & Hn).
      eapply fs_bind; [apply fs_looks; intro; apply (lk_unwrap _ _ (fun n => string_at md (td_namespace row) = Some n)); auto|]. intros ns s' _ (-> & Hns).
      eapply fs_bind; [apply cm_next_id|]. intros id s1 _ _.
      eapply fn_weak; [apply fs_add_type|].
      - split; [discriminate|split; intros ? []].
      - intros t s2 Ht. exists (qualified n ns). split; [|exact Ht]. exists row. split; [exact Hrow|].
        exists n, ns. auto using string_at_inv.
    Qed.
    Lemma fs_load_types a : forall n i s, fine still s (load_types p md a n i) (fun ts s' => forall q t, nth_error ts q = Some t ->
      exists fn, row_type (i + N.of_nat q) fn /\ is_named (c_types s') t fn).
    Proof.
      induction n as [|n IH]; intros i s; cbn [load_types].
      { intro W. split; [exact W|split; [apply still_refl|]]. intros [|q] t H; discriminate. }
      eapply fs_bind; [apply fs_load_type|]. intros t s1 _ (fn & Hr & Hn).
      eapply fs_bind; [apply IH|]. intros ts s2 S2 Hts. intro W. split; [exact W|split; [apply still_refl|]].
      intros [|q] u H; cbn in H.
      - injection H as <-. exists fn. rewrite N.add_0_r. split; [exact Hr|]. exact (st_types _ _ S2 _ _ Hn).
      - destruct (Hts q u H) as (fm & Hm & Hu). exists fm. replace (i + N.of_nat (S q)) with (i + 1 + N.of_nat q) by lia. auto.
    Qed.

    Lemma defines_one row a b : defines md row a -> defines md row b -> a = b.
    Proof.
      intros (n & ns & Hn & Hns & ->) (m & ms & Hm & Hms & ->).
      apply BodyProofs.string_at_text in Hn, Hns, Hm, Hms. congruence.
    Qed.
    Lemma row_of_one {A} (rows : list A) k x y : row_of rows k x -> row_of rows k y -> x = y.
    Proof. intros [_ H] [_ H']. congruence. Qed.

    Lemma fs_resolve_base s t i fn : row_type i fn -> is_named (c_types s) t fn -> fine still s (resolve_base p md t i) (fun _ _ => True).
    Proof.
      intros (row0 & Hrow0 & Hd) Hn. unfold resolve_base. change (handle_of_position TTypeDef i) with (i + 1).
      eapply fs_bind; [apply fs_looks; intro; exact (lk_row p s _ (i + 1) (sz_def _ Z))|]. intros row s' _ (-> & Hrow).
      pose proof (row_of_one _ _ _ _ Hrow0 Hrow) as ->.
      assert (fine still s (o0 <- type_def_or_ref_name p md (td_extends row) ;;
          b <- match o0 with Some n => get_type n | None => ret None end ;;
          b <- ok_or b "Unable to find base type" ;; modify_type t (with_base (Some b))) (fun _ _ => True)) as H.
      { eapply fs_bind; [apply fs_looks; intro; exact (lk_ref_name p md Z s _)|]. intros r s' _ (-> & Hr).
        eapply (fs_bind o _ _ _ (fun b s' => s' = s /\ forall u, b = Some u -> exists n, r = Some n /\ is_named (c_types s) u n)).
        { destruct r as [n|].
          - eapply fn_weak; [apply fs_looks; intro; now apply lk_get with (o := o) (n := n)|]. intros b s' (-> & Hb). split; [reflexivity|]. eauto.
          - intro W. split; [exact W|split; [apply still_refl|]]. split; [reflexivity|discriminate]. }
        intros b s' _ (-> & Hb).
        eapply fs_bind; [apply fs_looks; intro; apply (lk_ok_or _ _ _ (fun u => b = Some u)); auto|]. intros u s' _ (-> & Hu).
        destruct (Hb u Hu) as (n & Er & Hun). destruct (Hr n Er) as (tab & k & Ee & Hk).
        apply fs_modify; [reflexivity|]. intros ti Ht (_ & I & F). split; [|split; [exact I|exact F]].
        cbn [ti_base with_base ti_full_name]. intros v Hv. injection Hv as <-. exists n. split; [exact Hun|].
        assert (ti_full_name ti = fn) as -> by (destruct Hn as (x & Hx & <-); rewrite Ht in Hx; now injection Hx as ->).
        apply (io_base _ _ _ IO row fn n); [exact (nth_error_In _ _ (proj2 Hrow))|exact Hd|]. exists tab, k. auto. }
      destruct (ref_table (td_extends row)); try exact H. destruct (ref_index (td_extends row)); [apply cm_ret|exact H].
    Qed.
    Lemma cm_resolve_kind t i : calm (resolve_kind p md t i).
    Proof.
      unfold resolve_kind. cm. apply cm_modify; reflexivity.
    Qed.
    Lemma cm_reserve n : calm (reserve n).
    Proof. unfold reserve. cm. Qed.
    Hint Resolve cm_reserve : cm.

    Lemma fs_load_fields fuel t fn j row0 : (2 * top + 2 <= fuel)%nat -> nth_error (tb_type_def (m_tables md)) j = Some row0 -> defines md row0 fn ->
      forall n i off s, is_named (c_types s) t fn ->
      (forall k f, i <= k -> k < i + N.of_nat n -> row_of (tb_field (m_tables md)) k f ->
         In f (rows_of (map td_field_list (tb_type_def (m_tables md))) j (tb_field (m_tables md)))) ->
      fine still s (load_fields fuel p md t n i off) (fun _ _ => True).
    Proof.
      intros Hfuel Hrow0 Hd. induction n as [|n IH]; intros i off s Hn Hk; cbn [load_fields]; [apply cm_ret|].
      eapply fs_bind; [apply fs_field|]. intros fi s1 S1 (row & m & Hrow & Hst & Hsay & Hm).
      assert (Hn1 := st_types _ _ S1 _ _ Hn).
      eapply fs_bind; [apply fs_modify; [reflexivity|]|].
      { intros ti Ht (B & I & F). split; [exact B|split; [exact I|]]. cbn [ti_fields with_field ti_full_name].
        intros f Hf. apply in_app_or in Hf as [Hf|[<-|[]]]; [exact (F f Hf)|]. exists m. split; [exact Hm|]. intro Hs.
        assert (ti_full_name ti = fn) as -> by (destruct Hn1 as (x & Hx & <-); rewrite Ht in Hx; now injection Hx as ->).
        apply (io_field _ _ _ IO j row0 fn row m Hrow0 Hd); [apply (Hk i row); [lia|lia|exact Hrow]|congruence|exact Hsay]. }
      intros [] s2 S2 _.
      eapply fs_bind; [apply cm_type|]. intros ti s3 S3 _.
      eapply fs_bind; [apply cm_modify_assembly; reflexivity|]. intros [] s4 S4 _.
      assert (S14 : still s1 s4) by eauto using still_trans.
      eapply fs_bind; [apply fs_looks; intro W; apply (lk_size top o O p s4 W fuel _ m)|].
      { exact (st_types _ _ S14 _ _ Hm). }
      { right. pose proof (oo_top _ _ O m). lia. }
      intros sz s' _ (-> & _).
      eapply fs_bind; [apply cm_ovf|]. intros off' s5 S5 _. apply IH.
      - apply (st_types _ _ S5), (st_types _ _ S14), Hn1.
      - intros k f H1 H2. apply Hk; lia.
    Qed.
    Lemma nat_row {A} (rows : list A) i r : row_of rows (i + 1) r -> nth_error rows (N.to_nat i) = Some r.
    Proof. intros [_ H]. now replace (i + 1 - 1) with i in H by lia. Qed.
    Lemma nth_map_some {A B} (f : A -> B) l i x d : nth_error l i = Some x -> nth i (map f l) d = f x.
    Proof. revert i. induction l as [|y l IH]; intros [|i] H; cbn in *; try discriminate; [now injection H as ->|now apply IH]. Qed.
    Lemma fs_resolve_fields fuel s t i fn : (2 * top + 2 <= fuel)%nat -> row_type i fn -> is_named (c_types s) t fn ->
      fine still s (resolve_fields fuel p md t i) (fun _ _ => True).
    Proof.
      intros Hfuel (row0 & Hrow0 & Hd) Hn. unfold resolve_fields. change (handle_of_position TTypeDef i) with (i + 1).
      eapply fs_bind; [apply fs_looks; intro; exact (lk_row p s _ (i + 1) (sz_def _ Z))|]. intros row s' _ (-> & Hrow).
      pose proof (row_of_one _ _ _ _ Hrow0 Hrow) as ->.
      set (rows := tb_field (m_tables md)) in *. set (tds := tb_type_def (m_tables md)) in *.
      set (y := nth (S (N.to_nat i)) (map td_field_list tds) (len rows + 1)).
      eapply (fs_bind o _ _ _ (fun c s' => s' = s /\ forall stop, u_add p 64 (td_field_list row) c = Some stop -> td_field_list row < stop -> stop <= y)).
      { unfold run_length. change (handle_of_position TTypeDef i) with (i + 1). change (handle_of_position TTypeDef (i + 1)) with (i + 1 + 1). fold tds.
        eapply fs_bind; [apply fs_looks; intro; exact (lk_row p s _ (i + 1) (sz_def _ Z))|]. intros row' s' _ (-> & Hrow').
        pose proof (row_of_one _ _ _ _ Hrow Hrow') as <-. pose proof (nat_row _ _ _ Hrow) as Hi. apply nth_lt in Hi.
        destruct (N.eqb_spec i (len tds - 1)) as [E|E].
        - eapply fs_bind; [apply fs_looks; intro; apply (lk_ovf _ _ (fun x => u_sub p 64 (td_field_list row) 1 = Some x)); auto|]. intros x s' _ (-> & Hx).
          eapply fn_weak; [apply fs_looks; intro; apply (lk_ovf _ _ (fun c => u_sub p 64 (len rows) x = Some c)); auto|]. intros c s' (-> & Hc).
          split; [reflexivity|]. intros stop Hs L.
          assert (y = len rows + 1) as ->.
          { unfold y. apply nth_overflow. rewrite map_length. fold tds in Hi. unfold len in E. lia. }
          exact (run_stop_last p _ _ _ _ _ (sz_field _ Z) Hx Hc Hs L).
        - eapply fs_bind; [apply fs_looks; intro; exact (lk_row p s _ (i + 1 + 1) (sz_def _ Z))|]. intros next s' _ (-> & Hnext).
          eapply fn_weak; [apply fs_looks; intro; apply (lk_ovf _ _ (fun c => u_sub p 64 (td_field_list next) (td_field_list row) = Some c)); auto|]. intros c s' (-> & Hc).
          split; [reflexivity|]. intros stop Hs L.
          assert (y = td_field_list next) as ->.
          { unfold y. apply nth_map_some. apply nat_row in Hnext. now replace (N.to_nat (i + 1)) with (S (N.to_nat i)) in Hnext by lia. }
          exact (run_stop p _ _ _ _ Hc Hs L). }
      intros c s' _ (-> & Hc).
      eapply fs_bind; [apply cm_reserve|]. intros [] s1 S1 _. cbv zeta.
      eapply fs_bind; [apply fs_looks; intro; apply (lk_ovf _ _ (fun x => u_add p 64 (td_field_list row) c = Some x)); auto|]. intros stop s' _ (-> & Hstop).
      eapply fs_bind; [apply fs_looks; intro; apply lk_type|]. intros ti s' _ (-> & Ht).
      eapply (fs_bind o _ _ _ (fun _ s' => s' = s1)).
      { destruct (ti_base ti) as [b|] eqn:B.
        - intro W. destruct (od_base o s1 W _ _ _ Ht B) as (m & Hm & _).
          refine (fn_weak o still s1 _ _ _ (fs_looks o s1 _ _ (fun W => lk_size top o O p s1 W fuel b m Hm _)) _ W).
          + right. pose proof (oo_top _ _ O m). lia.
          + intros ? s' (-> & _). reflexivity.
        - intro W. split; [exact W|split; [apply still_refl|reflexivity]]. }
      intros off s' _ ->.
      eapply fs_bind; [apply cm_assembly|]. intros ai s2 S2 _.
      apply (fs_load_fields fuel t fn (N.to_nat i) row Hfuel (nat_row _ _ _ Hrow) Hd).
      - apply (st_types _ _ S2), (st_types _ _ S1), Hn.
      - intros k f H1 H2 Hf. fold rows in Hf |- *. unfold rows_of. fold tds. rewrite (nth_map_some td_field_list tds _ row _ (nat_row _ _ _ Hrow)).
        fold y. destruct (N.le_gt_cases stop (td_field_list row)) as [L|L]; [lia|]. specialize (Hc stop Hstop L).
        apply (rows_in rows _ _ k f); [exact H1|lia|exact Hf].
    Qed.
    Lemma cm_run_length i col total : calm (run_length p md i col total).
    Proof. unfold run_length. cm. Qed.
    Hint Resolve cm_run_length : cm.
    Lemma cm_resolve_methods t i : calm (resolve_methods p md t i).
    Proof.
      unfold resolve_methods. cm. apply cm_range_m. intro. cm. apply cm_modify; reflexivity.
    Qed.
    Lemma fs_resolve fuel s t i fn : (2 * top + 2 <= fuel)%nat -> row_type i fn -> is_named (c_types s) t fn ->
      fine still s (resolve fuel p md t i) (fun _ _ => True).
    Proof.
      intros Hfuel Hr Hn. unfold resolve. eapply fs_bind; [exact (fs_resolve_base s t i fn Hr Hn)|]. intros [] s1 S1 _.
      eapply fs_bind; [apply cm_resolve_kind|]. intros [] s2 S2 _.
      eapply fs_bind; [apply (fs_resolve_fields fuel s2 t i fn Hfuel Hr); apply (st_types _ _ S2), (st_types _ _ S1), Hn|]. intros [] s3 S3 _.
      apply cm_resolve_methods.
    Qed.
    Lemma fs_resolve_types fuel : (2 * top + 2 <= fuel)%nat -> forall ts i s,
      (forall q t, nth_error ts q = Some t -> exists fn, row_type (i + N.of_nat q) fn /\ is_named (c_types s) t fn) ->
      fine still s (resolve_types fuel p md ts i) (fun _ _ => True).
    Proof.
      intros Hfuel. induction ts as [|t ts IH]; intros i s H; cbn [resolve_types]; [apply cm_ret|].
      destruct (H 0%nat t eq_refl) as (fn & Hr & Hn). rewrite N.add_0_r in Hr.
      eapply fs_bind; [exact (fs_resolve fuel s t i fn Hfuel Hr Hn)|]. intros [] s1 S1 _. apply IH.
      intros q u Hu. destruct (H (S q) u Hu) as (fm & Hm & Hum). exists fm.
      replace (i + 1 + N.of_nat q) with (i + N.of_nat (S q)) by lia. split; [exact Hm|]. exact (st_types _ _ S1 _ _ Hum).
    Qed.

    (** ** Interfaces and references *)

    Lemma lk_full_name s x y : looks s (full_name_at md x y) (fun fn => exists n ns, heap_text md x n /\ heap_text md y ns /\ fn = qualified n ns).
    Proof.
      unfold full_name_at. eapply lk_bind; [apply (lk_unwrap _ _ (fun n => string_at md x = Some n)); auto|]. intros n Hn.
      eapply lk_bind; [apply (lk_unwrap _ _ (fun n => string_at md y = Some n)); auto|]. intros ns Hns. apply lk_ret.
      exists n, ns. auto using string_at_inv.
    Qed.
    Lemma cm_full_name x y : calm (full_name_at md x y).
    Proof. exact (cm_looks o _ _ (fun s _ => lk_full_name s x y)). Qed.
    Hint Resolve cm_full_name : cm.
    Lemma fs_interface s ii : In ii (tb_interface_impl (m_tables md)) -> fine still s (load_interface_impl p md ii) (fun _ _ => True).
    Proof.
      intro Hii. unfold load_interface_impl.
      eapply fs_bind; [apply fs_looks; intro; exact (lk_row p s _ _ (sz_def _ Z))|]. intros td s' _ (-> & [Hk Htd]).
      eapply fs_bind; [apply fs_looks; intro; apply lk_full_name|]. intros c s' _ (-> & (n & ns & Hn & Hns & ->)).
      eapply fs_bind; [apply fs_looks; intro; now apply lk_get with (o := o)|]. intros r s' _ (-> & Hr).
      eapply fs_bind; [apply fs_looks; intro; apply (lk_unwrap _ _ (fun t => r = Some t)); auto|]. intros t s' _ (-> & Ht).
      eapply (fs_bind o _ _ _ (fun i s' => s' = s /\ exists tab k, ii_interface ii = named_ref tab k /\ row_name md tab k i)).
      { destruct (ii_interface ii) as [tab k]. cbn [ref_table ref_index]. destruct tab; try apply cm_panic; try (intros W; exact Logic.I).
        - eapply fs_bind; [apply fs_looks; intro; exact (lk_row p s _ k (sz_ref _ Z))|]. intros d s' _ (-> & [H1 Hd]).
          eapply fn_weak; [apply fs_looks; intro; apply lk_full_name|]. intros i s' (-> & (m & ms & Hm & Hms & ->)).
          split; [reflexivity|]. exists InTypeRef, k. split; [reflexivity|]. econstructor; eauto.
        - eapply fs_bind; [apply fs_looks; intro; exact (lk_row p s _ k (sz_def _ Z))|]. intros d s' _ (-> & [H1 Hd]).
          eapply fn_weak; [apply fs_looks; intro; apply lk_full_name|]. intros i s' (-> & (m & ms & Hm & Hms & ->)).
          split; [reflexivity|]. exists InTypeDef, k. split; [reflexivity|]. econstructor; eauto. }
      intros i s' _ (-> & (tab & k & Ei & Hi)).
      eapply fs_bind; [apply fs_looks; intro; now apply lk_get with (o := o)|]. intros u s' _ (-> & Hu).
      eapply fs_bind; [apply fs_looks; intro; apply (lk_unwrap _ _ (fun t => u = Some t)); auto|]. intros v s' _ (-> & Hv).
      apply fs_modify; [reflexivity|]. intros ti Hti (B & I & F). split; [exact B|split; [|exact F]].
      cbn [ti_interfaces with_interface ti_full_name]. intros w Hw. apply in_app_or in Hw as [Hw|[<-|[]]]; [exact (I w Hw)|].
      exists i. split; [exact (Hu v Hv)|]. intros ->.
      assert (ti_full_name ti = qualified n ns) as -> by (destruct (Hr t Ht) as (x & Hx & <-); rewrite Hti in Hx; now injection Hx as ->).
      apply (io_interface _ _ _ IO ii (qualified n ns) tab k Hii); [econstructor; eauto|exact Ei|exact Hi].
    Qed.
    Lemma fs_iter {A} (R : vm -> vm -> Prop) (RR : forall s, R s s) (T : forall a b c, R a b -> R b c -> R a c) (f : A -> M vm unit) (P : vm -> Prop) :
      (forall a b, R a b -> P a -> P b) ->
      forall l s, P s -> (forall x s', In x l -> P s' -> fine R s' (f x) (fun _ _ => True)) -> fine R s (iter_m f l) (fun _ _ => True).
    Proof.
      intro Hp. induction l as [|x l IH]; intros s Hs H; cbn [iter_m].
      - intro W. split; [exact W|split; [apply RR|exact Logic.I]].
      - eapply fn_bind; [exact T|apply H; [now left|exact Hs]|]. intros [] s1 R1 _. apply IH; [eauto|]. intros y s2 Hy. apply H. now right.
    Qed.
    Lemma cm_method_refs : forall rows, calm (load_method_refs p md rows).
    Proof.
      induction rows as [|mr rows IH]; cbn [load_method_refs]; [apply cm_ret|]. destruct (ref_table _); try exact IH.
      cm. unfold get_method. cm.
    Qed.
    Lemma cm_type_refs : calm (load_type_refs p md).
    Proof. unfold load_type_refs. cm. Qed.

    (** ** The contents of an assembly *)

    Record grows (s s' : vm) : Prop := {
      gr_paths : c_paths s' = c_paths s;
      gr_loaded : forall n, loaded_as s n -> loaded_as s' n;
      gr_types : keeps (c_types s) (c_types s') }.
    Lemma grows_refl s : grows s s.
    Proof. split; auto using keeps_refl. Qed.
    Lemma grows_trans a b c : grows a b -> grows b c -> grows a c.
    Proof. intros [P1 L1 T1] [P2 L2 T2]. split; [congruence|auto|]. intros t n H. apply T2, T1, H. Qed.
    Lemma still_grows s s' : still s s' -> grows s s'.
    Proof.
      intros [P A R T]. split; auto. intros n (a & ai & Ha & Hn & <-). destruct (R a ai Hn) as (ai' & Hn' & E).
      exists a, ai'. rewrite A. auto.
    Qed.
    Lemma fine_grows {A} s (m : M vm A) Q : fine still s m Q -> fine grows s m Q.
    Proof.
      intros H W. specialize (H W). destruct (m s) as [a s'|e s'|w|w|]; auto.
      - destruct H as (? & ? & ?). auto using still_grows.
      - destruct H as (? & ?). auto using still_grows.
    Qed.
    (** What loads the contents of an assembly: it only registers the assembly at the end. *)
    Definition last {A} (s : vm) (m : M vm A) : Prop := orderly o s ->
      match m s with
      | Ok _ s' => orderly o s' /\ grows s s'
      | Err _ s' => orderly o s' /\ still s s'
      | NoFuel => False
      | _ => True
      end.
    Lemma la_bind {A B} s (m : M vm A) (k : A -> M vm B) Q : fine still s m Q ->
      (forall a s', still s s' -> Q a s' -> last s' (k a)) -> last s (bind m k).
    Proof.
      intros Hm Hk W. specialize (Hm W). unfold bind. destruct (m s) as [a s1|e s1|w|w|]; auto.
      destruct Hm as (W1 & S1 & Q1). specialize (Hk a s1 S1 Q1 W1). destruct (k a s1) as [b s2|e s2|w|w|]; auto.
      - destruct Hk as (W2 & G2). eauto using grows_trans, still_grows.
      - destruct Hk as (W2 & S2). eauto using still_trans.
    Qed.
    Lemma la_contents fuel a s : (2 * top + 2 <= fuel)%nat -> (exists ai, nth_error (c_arena s) a = Some (Some ai)) ->
      last s (load_contents fuel p md a).
    Proof.
      intros Hfuel (ai & Ha). unfold load_contents.
      eapply la_bind; [apply fs_load_types|]. intros ts s1 S1 Hts.
      eapply la_bind; [exact (fs_resolve_types fuel Hfuel ts 0 s1 Hts)|]. intros [] s2 S2 _.
      eapply la_bind.
      { apply (fs_iter still still_refl still_trans (load_interface_impl p md) (fun _ => True)); auto. intros ii s' Hi _. now apply fs_interface. }
      intros [] s3 S3 _.
      eapply la_bind; [apply cm_modify_assembly; reflexivity|]. intros [] s4 S4 _.
      eapply la_bind; [apply cm_map_m; intro; cm|]. intros defs s5 S5 _.
      eapply la_bind; [apply cm_modify_assembly; reflexivity|]. intros [] s6 S6 _.
      eapply (la_bind _ _ _ (fun _ _ => True)).
      { destruct (m_entry_point md) as [ep|]; [|apply cm_ret]. refine (cm_bind o _ _ _ _ s6).
        - unfold resolve_method. apply cm_bind; [apply cm_assembly|intro]. unfold get_row. cm.
        - intro r. cm. apply cm_modify_assembly. reflexivity. }
      intros [] s7 S7 _ W. unfold bind, get_state, put_state.
      assert (S : still s s7) by eauto 8 using still_trans.
      destruct (st_arena _ _ S a ai Ha) as (ai' & Ha' & _). split.
      - destruct W as [B I F N L]. split; cbn [set_assemblies c_types c_type_map c_assemblies c_arena]; auto.
        intros b Hb. apply in_app_or in Hb as [Hb|[<-|[]]]; eauto.
      - split; cbn [set_assemblies c_types c_type_map c_assemblies c_arena c_paths]; auto using keeps_refl.
        intros n (b & bi & Hb & Hn & E). exists b, bi. split; [apply in_or_app; now left|auto].
    Qed.
  End Image.

  (** ** Whole images *)

  Lemma still_loaded_drop s s' a : (forall b, In b (c_assemblies s) -> b <> a) -> still s s' ->
    grows s (set_arena s' (update (c_arena s') a (fun _ => None))).
  Proof.
    intros Hb [P A R T]. split; cbn [set_arena c_types c_assemblies c_arena c_paths]; auto.
    intros n (b & bi & Hin & Hn & E). destruct (R b bi Hn) as (bi' & Hn' & E'). exists b, bi'. cbn [set_arena c_assemblies c_arena].
    rewrite A, nth_update. split; [exact Hin|]. replace (Nat.eqb a b) with false by (symmetry; apply Nat.eqb_neq; intros ->; now apply (Hb b)).
    split; [exact Hn'|congruence].
  Qed.
  Lemma orderly_drop s a : orderly o s -> (forall b, In b (c_assemblies s) -> b <> a) ->
    orderly o (set_arena s (update (c_arena s) a (fun _ => None))).
  Proof.
    intros [B I F N L] H. split; cbn [set_arena c_types c_type_map c_assemblies c_arena]; auto.
    intros b Hb. rewrite nth_update. replace (Nat.eqb a b) with false by (symmetry; apply Nat.eqb_neq; intros ->; now apply (H b)). auto.
  Qed.

  Section Files.
    Variables (p : profile) (fs : file_system) (s0 : vm) (D : list byte -> Prop) (level : list byte -> nat).
    Hypothesis F : images_ordered p o fs s0 D level.

    Lemma data_sized data md : D data -> read_metadata p data tt = Ok md tt -> sized md.
    Proof.
      intros Hd E. destruct (tables_counted _ _ _ E) as [E1 E2]. split; [exact E1|exact (type_refs_counted _ _ _ E)|exact E2|].
      pose proof (sd_read_metadata p data (im_size _ _ _ _ _ _ F data Hd) tt Logic.I) as H. rewrite E in H. destruct H as [_ H]. exact (proj1 (proj2 H)).
    Qed.

    Lemma fs_load : forall fuel data s, D data -> (level data + 2 * top + 3 <= fuel)%nat -> grows s0 s ->
      fine grows s (load_data fuel p fs data) (fun _ _ => True).
    Proof.
      induction fuel as [|fuel IH]; intros data s Hd Hf Hg; [lia|]. cbn [load_data].
      eapply (fn_bind o grows grows_trans _ _ _ (fun md s' => read_metadata p data tt = Ok md tt)).
      { intro W. unfold lift. pose proof (nv_read_metadata p data tt) as H. destruct (read_metadata p data tt) as [md []|? ?|?|?|]; auto using grows_refl; now elim H. }
      intros md s1 G1 Emd. pose proof (data_sized data md Hd Emd) as Z. pose proof (im_types _ _ _ _ _ _ F data md Hd Emd) as IO.
      eapply (fn_bind o grows grows_trans); [apply fine_grows, cm_row|]. intros row s2 G2 _.
      eapply (fn_bind o grows grows_trans); [apply fine_grows, cm_unwrap|]. intros n s3 G3 _.
      assert (G03 : grows s0 s3) by eauto using grows_trans.
      eapply (fn_bind o grows grows_trans).
      { apply (fs_iter grows grows_refl grows_trans _ (fun s' => grows s0 s')); [eauto using grows_trans|exact G03|].
        intros r s4 Hr G4. cbv beta.
        eapply (fn_bind o grows grows_trans); [apply fine_grows, fs_looks; intro; apply (lk_ok_or _ _ _ (fun rn => string_at md (ar_name r) = Some rn)); auto|].
        intros rn s' _ (-> & Hrn).
        eapply (fn_bind o grows grows_trans _ _ _ (fun st s' => s' = s4 /\ st = s4)); [intro W; split; [exact W|split; [apply grows_refl|auto]]|].
        intros st s' _ (-> & ->).
        destruct (loaded (c_arena s4) (c_assemblies s4) rn) eqn:El; [apply fine_grows, cm_ret|].
        eapply (fn_bind o grows grows_trans); [apply fine_grows, fs_looks; intro; apply (lk_ok_or _ _ _ (fun c => resolve_assembly_name fs (c_paths s4) rn = Some c)); auto|].
        intros [d f] s' _ (-> & Hc). cbn [fst snd].
        destruct (fs d f) as [| |x] eqn:Ex; try (apply fine_grows, cm_fail).
        destruct (im_files _ _ _ _ _ _ F data md r rn d f x Hd Emd Hr (string_at_inv _ _ _ Hrn)) as [Hx Hl].
        - intro K. apply (gr_loaded _ _ G4) in K. apply LoaderRun.loaded_is in K. congruence.
        - rewrite <- (gr_paths _ _ G4). now apply resolve_first.
        - exact Ex.
        - eapply (fn_bind o grows grows_trans); [apply (IH x s4 Hx); [lia|exact G4]|]. intros a s5 _ _. apply fine_grows, cm_ret. }
      intros [] s4 G4 _.
      eapply (fn_bind o grows grows_trans); [apply fine_grows, (cm_method_refs p md)|]. intros mrs s5 G5 _.
      eapply (fn_bind o grows grows_trans); [apply fine_grows, (cm_type_refs p md)|]. intros trs s6 G6 _.
      intro W. unfold bind at 1. unfold new_assembly at 1. cbv beta iota.
      set (ai := mkAssembly _ _ _ _ _ _ _ _). set (a := List.length (c_arena s6)). set (s7 := set_arena s6 _).
      pose proof (fs_new_assembly o s6 ai W) as H7. unfold new_assembly in H7. fold s7 in H7. destruct H7 as (W7 & S7 & _ & A7).
      assert (Ha : nth_error (c_arena s7) a = Some (Some ai)).
      { unfold s7, a. cbn [set_arena c_arena]. rewrite nth_error_app2, Nat.sub_diag by lia. reflexivity. }
      assert (Hb : forall b, In b (c_assemblies s6) -> b <> a).
      { intros b Hin ->. destruct (od_alive _ _ W a Hin) as (x & Hx). apply nth_lt in Hx. unfold a in Hx. lia. }
      pose proof (la_contents p md Z IO fuel a s7 ltac:(lia) (ex_intro _ ai Ha) W7) as L. unfold drop_on_error.
      destruct (load_contents fuel p md a s7) as [u s8|e s8|w|w|]; auto.
      - destruct L as (W8 & G8). split; [exact W8|split; [|exact Logic.I]]. eapply grows_trans; [exact (still_grows _ _ S7)|exact G8].
      - destruct L as (W8 & S8). assert (S68 : still s6 s8) by eauto using still_trans. split.
        + apply orderly_drop; [exact W8|]. rewrite (st_assemblies _ _ S68). exact Hb.
        + now apply still_loaded_drop.
    Qed.
  End Files.
End Order.

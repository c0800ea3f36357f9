(** What a successful load leaves behind: the loops of the loader, followed from start to end. *)
From Coq Require Import NArith String List Bool Lia Arith.
From Coq.Strings Require Import Byte.
From Verif Require Import Base BaseFacts BinaryReader ParseSpec ReaderFacts Attributes Tables TablesProofs Blob Metadata
  Runtime Loader SpecBytes SpecBlob SpecPe Pe SpecMetadata SpecRuntime
  RuntimeInv SpecHistory HistoryProofs InterpInv SpecBody BodyProofs TypeFacts LayoutFacts SpecTypes SpecLoader LoaderFacts.
Import ListNotations.
Open Scope N_scope.

(** ** Descriptions survive *)

Definition named_le (ts ts' : list type_info) : Prop := forall t n, is_named ts t n -> is_named ts' t n.

Lemma field_as_mono md ts ts' row o f : named_le ts ts' -> field_as md ts row o f -> field_as md ts' row o f.
Proof. intros H []. split; auto. intros ty n A B C. apply H. eauto. Qed.
Lemma method_as_mono md ts ts' row o m : named_le ts ts' -> method_as md ts row o m -> method_as md ts' row o m.
Proof.
  intros H []. split; auto.
  - intros sg rn pns A B C D E. destruct (mas_types sg rn pns A B C D E) as [X Y].
    split; [now apply H|]. clear - H Y. induction Y; constructor; auto.
  - intros A B. destruct (mas_code A B) as (b & Eb & T & F). exists b. split; [exact Eb|]. split; [exact T|].
    intros init more mx tok code A1 A2 A3 A4. destruct (F _ _ _ _ _ A1 A2 A3 A4) as (F1 & F2 & F3 & F4).
    split; [exact F1|]. split; [exact F2|]. split; [exact F3|]. intros ls ns L1 L2 L3. specialize (F4 ls ns L1 L2 L3).
    clear - H F4. induction F4; constructor; auto.
  - intro A. destruct (mas_internal A) as (i & d & Ei & Nd & F). exists i, d. auto.
Qed.
Lemma named_le_within n0 a0 s s' : within n0 a0 s s' -> named_le (c_types s) (c_types s').
Proof. intros W t n. now apply (is_named_within n0 a0). Qed.
Lemma named_le_evolves s s' : evolves s s' -> named_le (c_types s) (c_types s').
Proof.
  intros [] t n (ti & E & N). destruct ev_types as [l ->]. exists ti. split; [|exact N].
  rewrite nth_error_app1; [exact E|]. exact (nth_lt _ _ _ E).
Qed.

(** ** Runs of rows *)

Definition bound (starts : list N) (total : N) (j : nat) : N := nth j (starts ++ [total + 1]) 0.

Section Bounds.
  Variables (starts : list N) (total : N).
  Hypothesis C : consecutive starts total.
  Let n := List.length starts.
  Let b := bound starts total.

  Lemma bound_at j : (j <= n)%nat -> nth_error (starts ++ [total + 1]) j = Some (b j).
  Proof.
    intro H. unfold b, bound. destruct (nth_error (starts ++ [total + 1]) j) as [x|] eqn:E.
    - f_equal. symmetry. now apply nth_error_nth.
    - apply nth_error_None in E. rewrite app_length in E. cbn in E. subst n. lia.
  Qed.
  Lemma bound_row j : (j < n)%nat -> nth_error starts j = Some (b j).
  Proof. intro H. rewrite <- bound_at by lia. now rewrite nth_error_app1. Qed.
  Lemma bound_first : b 0 = 1.
  Proof.
    destruct C as (E & _ & _). pose proof (nth_lt _ _ _ E) as L. pose proof (bound_row 0 L) as X. congruence.
  Qed.
  Lemma bound_last : b n = total + 1.
  Proof.
    pose proof (bound_at n (Nat.le_refl _)) as X. rewrite nth_error_app2, Nat.sub_diag in X by (subst n; lia). cbn in X. congruence.
  Qed.
  Lemma bound_step j : (j < n)%nat -> b j <= b (S j).
  Proof. intro H. destruct C as (_ & M & _). apply (M j); apply bound_at; lia. Qed.
  Lemma bound_mono : forall k j, (j + k <= n)%nat -> b j <= b (j + k).
  Proof.
    induction k as [|k IH]; intros j H; [rewrite Nat.add_0_r; lia|].
    etransitivity; [apply (IH j); lia|]. rewrite Nat.add_succ_r. apply bound_step. lia.
  Qed.
  Lemma bound_le j : (j <= n)%nat -> 1 <= b j <= total + 1.
  Proof.
    intro H. split.
    - rewrite <- bound_first. exact (bound_mono j 0 H).
    - rewrite <- bound_last. replace n with (j + (n - j))%nat by lia. apply bound_mono. lia.
  Qed.
  Lemma bound_belongs j k : (j < n)%nat -> b j <= k < b (S j) -> belongs starts k (N.of_nat j + 1).
  Proof.
    intros H [A B]. exists (b j). split; [|split; [exact A|]].
    - split; [lia|]. replace (N.to_nat _) with j by lia. now apply bound_row.
    - intros y [_ E]. replace (N.to_nat _) with (S j) in E by lia. pose proof (nth_lt _ _ _ E) as L.
      rewrite bound_row in E by exact L. injection E as <-. exact B.
  Qed.
End Bounds.

Lemma u_sub_small p a c : c <= a -> u_sub p 64 a c = Some (a - c).
Proof. intro H. unfold u_sub. apply N.leb_le in H. now rewrite H. Qed.
Lemma u_add_small p a c : a + c < 2 ^ 64 -> u_add p 64 a c = Some (a + c).
Proof. intro H. unfold u_add. apply N.ltb_lt in H. now rewrite H. Qed.
Lemma row_at_nth {A} p (rows : list A) j d s s' : len rows < 2 ^ 24 -> N.of_nat j < 2 ^ 24 ->
  row_at p rows (N.of_nat j + 1) s = Ok d s' -> s' = s /\ nth_error rows j = Some d.
Proof.
  change (2 ^ 24) with 16777216. intros L H E.
  apply row_at_inv in E as [-> [_ E]]; [|change (2 ^ 64) with 18446744073709551616; lia].
  split; [reflexivity|]. replace (N.to_nat _) with j in E by lia. exact E.
Qed.

(** ** Tables have as many rows as the header says *)

Lemma repeat_count {S A} (m : M S A) : forall n s l s', repeat_m n m s = Ok l s' -> List.length l = n.
Proof.
  induction n as [|n IH]; intros s l s' E; cbn [repeat_m] in E; [now injection E as <- <-|].
  apply bind_inv_ok in E as (x & s1 & _ & E). apply bind_inv_ok in E as (xs & s2 & E & R). injection R as <- <-.
  cbn. now rewrite (IH _ _ _ E).
Qed.
Lemma counts_small present : forall n i raw, Forall (fun c => c < 2 ^ 32) raw -> Forall (fun c => c < 2 ^ 32) (spread present i n raw).
Proof.
  induction n as [|n IH]; intros i raw F; cbn [spread]; [constructor|]. destruct (N.testbit present i).
  - destruct F; constructor; auto.
  - constructor; [reflexivity|auto].
Qed.
Lemma type_refs_read p E r tb r' : read_tables p E r = Ok tb r' ->
  List.length (tb_type_ref tb) = N.to_nat (at_table 0 (row_counts E) TTypeRef).
Proof.
  intro R. unfold read_tables in R. apply bind_inv_ok in R as (a & r2 & _ & R). apply bind_inv_ok in R as (trs & r3 & Rt & R).
  apply repeat_count in Rt. do 36 (apply bind_inv_ok in R as (? & ? & _ & R)). injection R as <- _. exact Rt.
Qed.
Lemma chunks_small : forall n raw, Forall (fun c => c < 2 ^ 32) (map le_dec (chunks 4 n raw)).
Proof.
  induction n as [|n IH]; intro raw; cbn [chunks map]; constructor; [|apply IH].
  eapply N.lt_le_trans; [apply le_dec_bound|]. change (2 ^ 32) with (256 ^ 4). apply N.pow_le_mono_r; [discriminate|].
  unfold len. rewrite firstn_length. lia.
Qed.
Lemma at_table_small l t : Forall (fun c => c < 2 ^ 32) l -> at_table 0 l t < 2 ^ 32.
Proof.
  intro F. unfold at_table. rewrite Forall_nth in F. destruct (Nat.lt_ge_cases (N.to_nat (table_id t)) (List.length l)) as [L|L].
  - now apply F.
  - rewrite nth_overflow by exact L. reflexivity.
Qed.
Lemma stream_counted p r tb r' : read_table_stream p r = Ok tb r' -> len (tb_type_ref tb) < 2 ^ 32.
Proof.
  intro R. unfold read_table_stream in R. do 8 (apply bind_inv_ok in R as (? & ? & _ & R)). apply type_refs_read in R.
  unfold len. rewrite R, N2Nat.id. apply at_table_small. apply counts_small, chunks_small.
Qed.
Lemma type_refs_counted p data md : read_metadata p data tt = Ok md tt -> len (tb_type_ref (m_tables md)) < 2 ^ 32.
Proof.
  intro E. unfold read_metadata in E. do 18 (apply bind_inv_ok in E as (? & [] & _ & E)).
  apply bind_inv_ok in E as (tb & [] & T & E). injection E as <-. cbn [m_tables].
  unfold on_reader in T. destruct (read_table_stream p (new_reader _)) as [tb' r|? ?|?|?|] eqn:R; try discriminate. injection T as ->.
  exact (stream_counted _ _ _ _ R).
Qed.

Section Run.
  Variables (p : profile) (md : metadata).
  Hypothesis Hmd : addressable md.
  Variables (n0 : nat) (a0 : aref).

  (** The parts of the assembly object that are settled before its contents are loaded. *)
  Definition settled (ai : assembly_info) := (a_name ai, a_user_strings ai, a_method_refs ai, a_type_refs ai, a_entry ai).
  Variable st : name * list byte * list method_info * list tref * option method_info.

  (** The methods of a type and the fields of the assembly that is being loaded. *)
  Definition methods_of (s : vm) (u : tref) (l : list method_info) : Prop :=
    exists ti, nth_error (c_types s) u = Some ti /\ ti_methods ti = l.
  Definition fields_of (s : vm) (l : list field_info) : Prop :=
    exists ai, nth_error (c_arena s) a0 = Some (Some ai) /\ a_fields ai = l /\ settled ai = st.
  Definition still (s s' : vm) : Prop :=
    (forall u l, methods_of s u l -> methods_of s' u l) /\ (forall l, fields_of s l -> fields_of s' l).

  Lemma still_refl s : still s s.
  Proof. split; auto. Qed.
  Lemma still_trans a b c : still a b -> still b c -> still a c.
  Proof. intros [A B] [C D]. split; auto. Qed.
  Lemma still_appends s s' : appends s s' -> still s s'.
  Proof.
    intro A. split.
    - intros u l (ti & E & M). exists ti. split; [|exact M]. rewrite (appends_nth _ _ _ A); [exact E|]. exact (nth_lt _ _ _ E).
    - intros l (ai & E & M). exists ai. split; [|exact M]. now rewrite (ap_arena _ _ A).
  Qed.
  Lemma still_modify t f s : (forall ti, ti_methods (f ti) = ti_methods ti) -> still s (set_types s (update (c_types s) t f)).
  Proof.
    intro H. split; [|auto]. intros u l (ti & E & M). unfold methods_of. cbn [c_types set_types]. rewrite nth_update, E.
    destruct (Nat.eqb t u); cbn; eexists; (split; [reflexivity|]); congruence.
  Qed.
  Lemma still_pure {A} (m : M vm A) s a s' : pure m -> m s = Ok a s' -> still s s'.
  Proof. intros P E. rewrite (pures _ _ _ _ P E). apply still_refl. Qed.

  Lemma resolve_base_still t i s s' : resolve_base p md t i s = Ok tt s' -> still s s'.
  Proof.
    unfold resolve_base. intro E. apply bind_inv_ok in E as (d & s1 & E1 & E).
    pose proof (pures _ _ _ _ (pure_row_at p _ _) E1) as ->.
    assert (K : forall X, X s = Ok tt s' -> X = (o <- type_def_or_ref_name p md (td_extends d) ;;
      b <- match o with Some n => get_type n | None => ret None end ;;
      b <- ok_or b "Unable to find base type" ;; modify_type t (with_base (Some b))) -> still s s').
    { intros X R ->. apply bind_inv_ok in R as (o & s1 & E2 & R). pose proof (pures _ _ _ _ (pure_type_def_or_ref_name p md _) E2) as ->.
      apply bind_inv_ok in R as (b & s1 & E3 & R).
      assert (s1 = s) as -> by (destruct o; [exact (pures _ _ _ _ (pure_get_type n) E3)|now injection E3]).
      apply bind_inv_ok in R as (b' & s1 & E4 & R). pose proof (pures _ _ _ _ (pure_ok_or _ _) E4) as ->.
      injection R as <-. apply still_modify. reflexivity. }
    destruct (ref_table (td_extends d)); try (eapply K; [exact E|reflexivity]).
    destruct (ref_index (td_extends d)); [injection E as <-; apply still_refl|eapply K; [exact E|reflexivity]].
  Qed.
  Lemma resolve_kind_still t i s s' : resolve_kind p md t i s = Ok tt s' -> still s s'.
  Proof.
    unfold resolve_kind. intro E. apply bind_inv_ok in E as (d & s1 & E1 & E).
    pose proof (pures _ _ _ _ (pure_row_at p _ _) E1) as ->.
    apply bind_inv_ok in E as (ti & s1 & E2 & E). pose proof (pures _ _ _ _ (pure_the_type t) E2) as ->.
    apply bind_inv_ok in E as (k & s1 & E3 & E).
    assert (s1 = s) as ->.
    { destruct (ta_semantics _); [|now injection E3]. destruct (ti_base ti) as [b|]; [|now injection E3].
      apply bind_inv_ok in E3 as (bi & s2 & X & Y). pose proof (pures _ _ _ _ (pure_the_type b) X) as ->. now injection Y. }
    injection E as <-. apply still_modify. reflexivity.
  Qed.
  Lemma load_interface_impl_still ii s s' : load_interface_impl p md ii s = Ok tt s' -> still s s'.
  Proof.
    unfold load_interface_impl. intro E.
    assert (FN : forall x y, pure (full_name_at md x y)) by (intros; unfold full_name_at; pur).
    apply bind_inv_ok in E as (d & s1 & E1 & E). pose proof (pures _ _ _ _ (pure_row_at p _ _) E1) as ->.
    apply bind_inv_ok in E as (fn & s1 & E2 & E). pose proof (pures _ _ _ _ (FN _ _) E2) as ->.
    apply bind_inv_ok in E as (o & s1 & E3 & E). pose proof (pures _ _ _ _ (pure_get_type _) E3) as ->.
    apply bind_inv_ok in E as (t & s1 & E4 & E). pose proof (pures _ _ _ _ (pure_unwrap _) E4) as ->.
    apply bind_inv_ok in E as (ifn & s1 & E5 & E).
    assert (s1 = s) as ->.
    { refine (pures _ _ _ _ _ E5). destruct (ref_table _); try apply pure_panic;
        (apply pure_bind; [apply pure_row_at|intro; apply FN]). }
    apply bind_inv_ok in E as (o2 & s1 & E6 & E). pose proof (pures _ _ _ _ (pure_get_type _) E6) as ->.
    apply bind_inv_ok in E as (i & s1 & E7 & E). pose proof (pures _ _ _ _ (pure_unwrap _) E7) as ->.
    injection E as <-. apply still_modify. reflexivity.
  Qed.

  (** ** Fields *)

  Lemma load_fields_run fuel t : forall n i off s s' l, consistent p s -> loading n0 a0 s -> mine n0 a0 s t ->
    len (tb_field (m_tables md)) < 2 ^ 24 -> i + N.of_nat n < 2 ^ 64 -> fields_of s l ->
    load_fields fuel p md t n i off s = Ok tt s' ->
    consistent p s' /\ within n0 a0 s s' /\ (forall u ms, methods_of s u ms -> methods_of s' u ms) /\
    exists l', fields_of s' (l ++ l') /\ List.length l' = n /\
      forall q f, nth_error l' q = Some f ->
        exists row, row_of (tb_field (m_tables md)) (i + N.of_nat q) row /\ field_as md (c_types s') row t f.
  Proof.
    induction n as [|n IH]; intros i off s s' l W L Mt Lt Hi F E; cbn [load_fields] in E.
    - injection E as <-. split; [exact W|]. split; [apply within_refl|]. split; [auto|]. exists []. rewrite app_nil_r.
      split; [exact F|]. split; [reflexivity|]. intros [|q] f X; discriminate.
    - apply bind_inv_ok in E as (fi & s1 & E1 & E).
      destruct (pres_run_ok _ _ _ _ _ _ _ (load_field_pres p md t i off s (mine_ref _ _ _ _ Mt)) W E1) as (W1 & A1 & V1).
      pose proof (appends_within n0 a0 _ _ (proj1 L) A1) as R1.
      pose proof (loading_within _ _ _ _ L R1) as L1. pose proof (mine_within _ _ _ _ _ Mt R1) as M1.
      assert (Ki : i < 2 ^ 64) by lia. assert (Kj : i + 1 + N.of_nat n < 2 ^ 64) by lia.
      destruct (load_field_as p md Hmd _ _ _ _ _ _ W Lt Ki E1) as (row & Hr & As).
      apply bind_inv_ok in E as ([] & s2 & E2 & E).
      assert (P2 : pres p (within n0 a0) s1 (modify_type t (with_field fi)) (fun _ _ => True)).
      { apply modify_type_pres; [apply Mt|intro; repeat split|].
        intros ti (A & B & D & G & H & J & K). repeat split; auto.
        - apply Forall_app. split; [exact D|]. constructor; [exact V1|constructor].
        - constructor; [exact V1|exact J]. }
      destruct (pres_run_ok _ _ _ _ _ _ _ P2 W1 E2) as (W2 & R2 & _).
      assert (T2 : still s1 s2) by (injection E2 as <-; apply still_modify; reflexivity).
      pose proof (loading_within _ _ _ _ L1 R2) as L2. pose proof (mine_within _ _ _ _ _ M1 R2) as M2.
      pose proof M2 as [M2a (ti & Et & Ea)].
      apply bind_inv_ok in E as (ti' & s2' & E3 & E). pose proof (pures _ _ _ _ (pure_the_type t) E3) as ->.
      unfold the_type in E3. rewrite Et in E3. injection E3 as <-. rewrite Ea in E.
      apply bind_inv_ok in E as ([] & s3 & E4 & E).
      match type of E4 with modify_assembly _ ?g _ = _ => set (h := g) in E4 end.
      assert (P3 : pres p (within n0 a0) s2 (modify_assembly a0 h) (fun _ _ => True)).
      { apply modify_assembly_pres. intros ai (A & B & D & G & H & J). repeat split; auto. apply Forall_app. split; [exact H|].
        constructor; [|constructor]. eapply v_field_mono; [|exact V1]. apply (wi_count _ _ _ _ R2). }
      destruct (pres_run_ok _ _ _ _ _ _ _ P3 W2 E4) as (W3 & R3 & _).
      pose proof (loading_within _ _ _ _ L2 R3) as L3. pose proof (mine_within _ _ _ _ _ M2 R3) as M3.
      assert (F3 : fields_of s3 (l ++ [fi])).
      { destruct (proj2 (still_trans _ _ _ (still_appends _ _ A1) T2) _ F) as (ai & Ei & Ef & Es). injection E4 as <-.
        exists (h ai). cbn [c_arena set_arena]. rewrite nth_update, Nat.eqb_refl, Ei. split; [reflexivity|]. cbn. split; [now rewrite Ef|exact Es]. }
      assert (T3 : forall u ms, methods_of s u ms -> methods_of s3 u ms).
      { intros u ms Hu. apply (still_appends _ _ A1) in Hu. apply T2 in Hu. injection E4 as <-. exact Hu. }
      apply bind_inv_ok in E as (sz & s4 & E5 & E). pose proof (pures _ _ _ _ (pure_type_size p fuel _) E5) as ->.
      apply bind_inv_ok in E as (off' & s4 & E6 & E). pose proof (pures _ _ _ _ (pure_ovf _) E6) as ->.
      destruct (IH _ _ _ _ _ W3 L3 M3 Lt Kj F3 E) as (W4 & R4 & T4 & l' & F4 & Len & D).
      assert (R13 : within n0 a0 s1 s') by (eapply within_trans; [exact R2|]; eapply within_trans; eauto).
      split; [exact W4|]. split; [eapply within_trans; eauto|]. split; [auto|].
      exists (fi :: l'). split; [|split].
      + rewrite <- app_assoc in F4. exact F4.
      + cbn. now rewrite Len.
      + intros [|q] f X; cbn in X.
        * injection X as <-. exists row. rewrite N.add_0_r. split; [exact Hr|].
          eapply field_as_mono; [|exact As]. exact (named_le_within _ _ _ _ R13).
        * destruct (D _ _ X) as (r & Hr' & As'). exists r. split; [|exact As'].
          replace (i + N.of_nat (S q)) with (i + 1 + N.of_nat q) by lia. exact Hr'.
  Qed.

  (** ** Methods *)

  Lemma load_methods_run t : forall n i s s' l, consistent p s -> loading n0 a0 s -> mine n0 a0 s t ->
    len (tb_method_def (m_tables md)) < 2 ^ 24 -> i + N.of_nat n < 2 ^ 64 -> methods_of s t l ->
    range_m n i (fun i => m <- load_method p md t i ;; modify_type t (with_method m)) s = Ok tt s' ->
    consistent p s' /\ within n0 a0 s s' /\ (forall fs, fields_of s fs -> fields_of s' fs) /\
    (forall u ms, u <> t -> methods_of s u ms -> methods_of s' u ms) /\
    exists l', methods_of s' t (l ++ l') /\ List.length l' = n /\
      forall q m, nth_error l' q = Some m ->
        exists row, row_of (tb_method_def (m_tables md)) (i + N.of_nat q) row /\ method_as md (c_types s') row t m.
  Proof.
    induction n as [|n IH]; intros i s s' l W L Mt Lt Hi F E; cbn [range_m] in E.
    - injection E as <-. split; [exact W|]. split; [apply within_refl|]. split; [auto|]. split; [auto|]. exists []. rewrite app_nil_r.
      split; [exact F|]. split; [reflexivity|]. intros [|q] f X; discriminate.
    - apply bind_inv_ok in E as ([] & s2 & E0 & E). apply bind_inv_ok in E0 as (m & s1 & E1 & E2).
      pose proof (mine_ref _ _ _ _ Mt) as Vt.
      destruct (pres_run_ok _ _ _ _ _ _ _ (load_method_pres p md t i s Vt) W E1) as (W1 & A1 & V1).
      pose proof (appends_within n0 a0 _ _ (proj1 L) A1) as R1.
      pose proof (loading_within _ _ _ _ L R1) as L1. pose proof (mine_within _ _ _ _ _ Mt R1) as M1.
      assert (Ki : i < 2 ^ 64) by lia. assert (Kj : i + 1 + N.of_nat n < 2 ^ 64) by lia.
      destruct (load_method_as p md Hmd _ _ _ _ _ W Vt Lt Ki E1) as (row & Hr & As).
      assert (P2 : pres p (within n0 a0) s1 (modify_type t (with_method m)) (fun _ _ => True)).
      { apply modify_type_pres; [apply Mt|intro; repeat split|].
        intros ti (A & B & D & G & H & J & K). repeat split; auto.
        - apply Forall_app. split; [exact G|]. constructor; [exact V1|constructor].
        - constructor; [exact V1|exact K]. }
      destruct (pres_run_ok _ _ _ _ _ _ _ P2 W1 E2) as (W2 & R2 & _).
      pose proof (loading_within _ _ _ _ L1 R2) as L2. pose proof (mine_within _ _ _ _ _ M1 R2) as M2.
      pose proof (still_appends _ _ A1) as [S1 S2].
      assert (F2 : methods_of s2 t (l ++ [m])).
      { destruct (S1 _ _ F) as (ti & Et & Em). injection E2 as <-. exists (with_method m ti). cbn [c_types set_types].
        rewrite nth_update, Nat.eqb_refl, Et. split; [reflexivity|]. cbn. now rewrite Em. }
      assert (O2 : forall u ms, u <> t -> methods_of s u ms -> methods_of s2 u ms).
      { intros u ms Hu (ti & Et & Em)%S1. injection E2 as <-. exists ti. cbn [c_types set_types]. rewrite nth_update.
        destruct (Nat.eqb t u) eqn:X; [apply Nat.eqb_eq in X; congruence|]. auto. }
      assert (G2 : forall fs, fields_of s fs -> fields_of s2 fs).
      { intros fs Hf%S2. injection E2 as <-. exact Hf. }
      destruct (IH _ _ _ _ W2 L2 M2 Lt Kj F2 E) as (W3 & R3 & G3 & O3 & l' & F3 & Len & D).
      assert (R13 : within n0 a0 s1 s') by (eapply within_trans; eauto).
      split; [exact W3|]. split; [eapply within_trans; eauto|]. split; [auto|]. split; [auto|].
      exists (m :: l'). split; [|split].
      + rewrite <- app_assoc in F3. exact F3.
      + cbn. now rewrite Len.
      + intros [|q] f X; cbn in X.
        * injection X as <-. exists row. rewrite N.add_0_r. split; [exact Hr|].
          eapply method_as_mono; [|exact As]. exact (named_le_within _ _ _ _ R13).
        * destruct (D _ _ X) as (r & Hr' & As'). exists r. split; [|exact As'].
          replace (i + N.of_nat (S q)) with (i + 1 + N.of_nat q) by lia. exact Hr'.
  Qed.

  (** ** One type *)

  Hypothesis Hl : well_listed md.
  Let tds := tb_type_def (m_tables md).
  Let fb := bound (map td_field_list tds) (len (tb_field (m_tables md))).
  Let mb := bound (map td_method_list tds) (len (tb_method_def (m_tables md))).

  Lemma small_pos j : (j < List.length tds)%nat -> N.of_nat j < 2 ^ 24.
  Proof. destruct Hl as (H & _). fold tds in H. unfold len in H. lia. Qed.
  Lemma run_length_run col total j s c s' : consecutive (map col tds) total -> (j < List.length tds)%nat ->
    run_length p md (N.of_nat j) col total s = Ok c s' ->
    s' = s /\ c = bound (map col tds) total (S j) - bound (map col tds) total j.
  Proof.
    intros C Hj E. set (b := bound (map col tds) total). destruct Hl as (Ht & _). fold tds in Ht.
    assert (Hn : List.length (map col tds) = List.length tds) by apply map_length.
    pose proof (bound_row (map col tds) total) as Br. fold b in Br.
    unfold run_length in E. cbn [handle_of_position] in E. fold tds in E.
    apply bind_inv_ok in E as (d & s1 & E1 & E). apply row_at_nth in E1 as [-> Ed]; [|exact Ht|now apply small_pos].
    assert (Bj : col d = b j).
    { specialize (Br j ltac:(lia)). rewrite nth_error_map, Ed in Br. cbn in Br. congruence. }
    destruct (N.of_nat j =? len tds - 1) eqn:K.
    - apply N.eqb_eq in K. unfold len in K. assert (Hs : S j = List.length (map col tds)) by lia.
      pose proof (bound_last (map col tds) total) as Bl. fold b in Bl. rewrite <- Hs in Bl.
      destruct (bound_le _ _ C j ltac:(lia)) as [B1 B2]. fold b in B1, B2.
      apply bind_inv_ok in E as (x & s1 & E2 & E). rewrite Bj, u_sub_small in E2 by lia. injection E2 as <- <-.
      rewrite u_sub_small in E by lia. injection E as <- <-. split; [reflexivity|]. lia.
    - apply N.eqb_neq in K. unfold len in K. assert (Hs : (S j < List.length tds)%nat) by lia.
      apply bind_inv_ok in E as (d' & s1 & E2 & E). replace (N.of_nat j + 1) with (N.of_nat (S j)) in E2 by lia.
      apply row_at_nth in E2 as [-> Ed']; [|exact Ht|now apply small_pos].
      assert (Bk : col d' = b (S j)).
      { specialize (Br (S j) ltac:(lia)). rewrite nth_error_map, Ed' in Br. cbn in Br. congruence. }
      pose proof (bound_step _ _ C j ltac:(lia)) as Bs. fold b in Bs.
      rewrite Bj, Bk, u_sub_small in E by exact Bs. injection E as <- <-. auto.
  Qed.

  Lemma resolve_fields_run fuel t j s s' l : consistent p s -> loading n0 a0 s -> mine n0 a0 s t -> (j < List.length tds)%nat ->
    fields_of s l -> resolve_fields fuel p md t (N.of_nat j) s = Ok tt s' ->
    consistent p s' /\ within n0 a0 s s' /\ (forall u ms, methods_of s u ms -> methods_of s' u ms) /\
    exists l', fields_of s' (l ++ l') /\ len l' = fb (S j) - fb j /\
      forall q f, nth_error l' q = Some f ->
        exists row, row_of (tb_field (m_tables md)) (fb j + N.of_nat q) row /\ field_as md (c_types s') row t f.
  Proof.
    intros W L Mt Hj F E. pose proof Hl as (Ht & Cf & _). fold tds in Ht, Cf. unfold resolve_fields in E. cbn [handle_of_position] in E. fold tds in E.
    assert (Hn : List.length (map td_field_list tds) = List.length tds) by apply map_length.
    apply bind_inv_ok in E as (d & s1 & E1 & E). apply row_at_nth in E1 as [-> Ed]; [|exact Ht|now apply small_pos].
    assert (Bj : td_field_list d = fb j).
    { pose proof (bound_row (map td_field_list tds) (len (tb_field (m_tables md))) j ltac:(lia)) as Br.
      rewrite nth_error_map, Ed in Br. cbn in Br. unfold fb. congruence. }
    apply bind_inv_ok in E as (c & s1 & E2 & E). apply (run_length_run _ _ _ _ _ _ Cf Hj) in E2 as [-> Ec]. fold fb in Ec.
    apply bind_inv_ok in E as ([] & s1 & E3 & E). pose proof (pures _ _ _ _ (pure_reserve c) E3) as ->.
    destruct (bound_le _ _ Cf j ltac:(lia)) as [B1 B2]. destruct (bound_le _ _ Cf (S j) ltac:(lia)) as [B3 B4].
    pose proof (bound_step _ _ Cf j ltac:(lia)) as Bs. fold fb in B1, B2, B3, B4, Bs. pose proof (proj2 (proj2 Cf)) as Lt.
    assert (Hstop : td_field_list d + c = fb (S j)) by lia.
    assert (K24 : 2 ^ 24 < 2 ^ 64) by reflexivity.
    apply bind_inv_ok in E as (stop & s1 & E4 & E). rewrite u_add_small in E4 by lia. injection E4 as <- <-.
    apply bind_inv_ok in E as (ti & s1 & E5 & E). pose proof (pures _ _ _ _ (pure_the_type t) E5) as ->.
    apply bind_inv_ok in E as (off & s1 & E6 & E).
    assert (s1 = s) as -> by (destruct (ti_base ti); [exact (pures _ _ _ _ (pure_type_size p fuel _) E6)|now injection E6]).
    apply bind_inv_ok in E as (ai & s1 & E7 & E). pose proof (pures _ _ _ _ (pure_the_assembly _) E7) as ->.
    rewrite Hstop, Bj in E.
    assert (Lf : len (tb_field (m_tables md)) < 2 ^ 24) by lia.
    assert (Le : fb j + N.of_nat (N.to_nat (fb (S j) - fb j)) < 2 ^ 64) by lia.
    destruct (load_fields_run _ _ _ _ _ _ _ _ W L Mt Lf Le F E) as (W' & R' & T' & l' & F' & Len & D).
    split; [exact W'|]. split; [exact R'|]. split; [exact T'|]. exists l'. split; [exact F'|]. split; [unfold len; lia|exact D].
  Qed.

  Lemma resolve_methods_run t j s s' : consistent p s -> loading n0 a0 s -> mine n0 a0 s t -> (j < List.length tds)%nat ->
    methods_of s t [] -> resolve_methods p md t (N.of_nat j) s = Ok tt s' ->
    consistent p s' /\ within n0 a0 s s' /\ (forall fs, fields_of s fs -> fields_of s' fs) /\
    (forall u ms, u <> t -> methods_of s u ms -> methods_of s' u ms) /\
    exists l', methods_of s' t l' /\ len l' = mb (S j) - mb j /\
      forall q m, nth_error l' q = Some m ->
        exists row, row_of (tb_method_def (m_tables md)) (mb j + N.of_nat q) row /\ method_as md (c_types s') row t m.
  Proof.
    intros W L Mt Hj F E. pose proof Hl as (Ht & _ & Cm). fold tds in Ht, Cm. unfold resolve_methods in E. cbn [handle_of_position] in E. fold tds in E.
    assert (Hn : List.length (map td_method_list tds) = List.length tds) by apply map_length.
    apply bind_inv_ok in E as (d & s1 & E1 & E). apply row_at_nth in E1 as [-> Ed]; [|exact Ht|now apply small_pos].
    assert (Bj : td_method_list d = mb j).
    { pose proof (bound_row (map td_method_list tds) (len (tb_method_def (m_tables md))) j ltac:(lia)) as Br.
      rewrite nth_error_map, Ed in Br. cbn in Br. unfold mb. congruence. }
    apply bind_inv_ok in E as (c & s1 & E2 & E). apply (run_length_run _ _ _ _ _ _ Cm Hj) in E2 as [-> Ec]. fold mb in Ec.
    apply bind_inv_ok in E as ([] & s1 & E3 & E). pose proof (pures _ _ _ _ (pure_reserve c) E3) as ->.
    destruct (bound_le _ _ Cm j ltac:(lia)) as [B1 B2]. destruct (bound_le _ _ Cm (S j) ltac:(lia)) as [B3 B4].
    pose proof (bound_step _ _ Cm j ltac:(lia)) as Bs. fold mb in B1, B2, B3, B4, Bs. pose proof (proj2 (proj2 Cm)) as Lt.
    assert (Hstop : td_method_list d + c = mb (S j)) by lia.
    assert (K24 : 2 ^ 24 < 2 ^ 64) by reflexivity.
    apply bind_inv_ok in E as (stop & s1 & E4 & E). rewrite u_add_small in E4 by lia. injection E4 as <- <-.
    rewrite Hstop, Bj in E.
    assert (Lf : len (tb_method_def (m_tables md)) < 2 ^ 24) by lia.
    assert (Le : mb j + N.of_nat (N.to_nat (mb (S j) - mb j)) < 2 ^ 64) by lia.
    destruct (load_methods_run _ _ _ _ _ _ W L Mt Lf Le F E) as (W' & R' & G' & T' & l' & F' & Len & D).
    split; [exact W'|]. split; [exact R'|]. split; [exact G'|]. split; [exact T'|]. exists l'. split; [exact F'|]. split; [unfold len; lia|exact D].
  Qed.

  (** ** All types *)

  (** After the first [i] of the [n] types from [m] on have been resolved. *)
  Record held (m i : nat) (s : vm) : Prop := {
    h_fields : exists l, fields_of s l /\ len l + 1 = fb i /\
      forall q f, nth_error l q = Some f -> exists j row, (j < i)%nat /\ fb j <= N.of_nat q + 1 < fb (S j) /\
        row_of (tb_field (m_tables md)) (N.of_nat q + 1) row /\ field_as md (c_types s) row (m + j)%nat f;
    h_methods : forall j, (j < i)%nat -> exists l, methods_of s (m + j)%nat l /\ len l = mb (S j) - mb j /\
      forall q x, nth_error l q = Some x ->
        exists row, row_of (tb_method_def (m_tables md)) (mb j + N.of_nat q) row /\ method_as md (c_types s) row (m + j)%nat x;
    h_rest : forall j, (i <= j < List.length tds)%nat -> methods_of s (m + j)%nat [] }.

  Lemma held_still m i s s' : still s s' -> named_le (c_types s) (c_types s') -> held m i s -> held m i s'.
  Proof.
    intros [A B] N [Hf Hm Hr]. split.
    - destruct Hf as (l & F & Le & D). exists l. split; [auto|]. split; [exact Le|]. intros q f X.
      destruct (D _ _ X) as (j & row & H1 & H2 & H3 & H4). exists j, row. eauto using field_as_mono.
    - intros j Hj. destruct (Hm j Hj) as (l & F & Le & D). exists l. split; [auto|]. split; [exact Le|]. intros q f X.
      destruct (D _ _ X) as (row & H1 & H2). eauto using method_as_mono.
    - auto.
  Qed.

  Lemma resolve_run fuel m i s s' : consistent p s -> loading n0 a0 s -> mine n0 a0 s (m + i)%nat -> (i < List.length tds)%nat ->
    held m i s -> resolve fuel p md (m + i)%nat (N.of_nat i) s = Ok tt s' ->
    consistent p s' /\ within n0 a0 s s' /\ held m (S i) s'.
  Proof.
    intros W L Mt Hi H E. unfold resolve in E. set (t := (m + i)%nat) in *.
    apply bind_inv_ok in E as ([] & s1 & E1 & E).
    destruct (pres_run_ok _ _ _ _ _ _ _ (resolve_base_pres p md n0 a0 t _ s L Mt) W E1) as (W1 & R1 & _).
    pose proof (loading_within _ _ _ _ L R1) as L1. pose proof (mine_within _ _ _ _ _ Mt R1) as M1.
    apply held_still with (s' := s1) in H; [|exact (resolve_base_still _ _ _ _ E1)|exact (named_le_within _ _ _ _ R1)].
    apply bind_inv_ok in E as ([] & s2 & E2 & E).
    destruct (pres_run_ok _ _ _ _ _ _ _ (resolve_kind_pres p md n0 a0 t _ s1 L1 M1) W1 E2) as (W2 & R2 & _).
    pose proof (loading_within _ _ _ _ L1 R2) as L2. pose proof (mine_within _ _ _ _ _ M1 R2) as M2.
    apply held_still with (s' := s2) in H; [|exact (resolve_kind_still _ _ _ _ E2)|exact (named_le_within _ _ _ _ R2)].
    apply bind_inv_ok in E as ([] & s3 & E3 & E4). destruct H as [(l & F & Le & D) Hm Hr].
    destruct (resolve_fields_run _ _ _ _ _ _ W2 L2 M2 Hi F E3) as (W3 & R3 & T3 & lf & F3 & Lf & Df).
    pose proof (loading_within _ _ _ _ L2 R3) as L3. pose proof (mine_within _ _ _ _ _ M2 R3) as M3.
    assert (F0 : methods_of s3 t []) by (apply T3, Hr; lia).
    destruct (resolve_methods_run _ _ _ _ W3 L3 M3 Hi F0 E4) as (W4 & R4 & G4 & T4 & lm & F4 & Lm & Dm).
    pose proof (named_le_within _ _ _ _ R3) as N3. pose proof (named_le_within _ _ _ _ R4) as N4.
    split; [exact W4|]. split; [eauto using within_trans|].
    assert (Hn : List.length (map td_field_list tds) = List.length tds) by apply map_length.
    pose proof (bound_step _ _ (proj1 (proj2 Hl)) i ltac:(fold tds; lia)) as Bs. fold tds in Bs. fold fb in Bs.
    split.
    - exists (l ++ lf). split; [auto|]. split; [unfold len in *; rewrite app_length; lia|]. intros q f X.
      destruct (Nat.lt_ge_cases q (List.length l)) as [Q|Q].
      + rewrite nth_error_app1 in X by exact Q. destruct (D _ _ X) as (j & row & H1 & H2 & H3 & H4).
        exists j, row. split; [lia|]. split; [exact H2|]. split; [exact H3|].
        eapply field_as_mono; [exact N4|]. eapply field_as_mono; [exact N3|exact H4].
      + rewrite nth_error_app2 in X by exact Q. pose proof (nth_lt _ _ _ X) as Q'. destruct (Df _ _ X) as (row & H1 & H2).
        exists i, row. split; [lia|]. unfold len in *.
        replace (N.of_nat q + 1) with (fb i + N.of_nat (q - List.length l)) by lia. split; [lia|]. split; [exact H1|].
        eapply field_as_mono; [exact N4|exact H2].
    - intros j Hj. destruct (Nat.eq_dec j i) as [->|Nj].
      + exists lm. split; [exact F4|]. split; [exact Lm|exact Dm].
      + destruct (Hm j ltac:(lia)) as (k & X & Lk & Dk). exists k. split; [apply T4; [subst t; lia|]; now apply T3|].
        split; [exact Lk|]. intros q x Y. destruct (Dk _ _ Y) as (row & H1 & H2). exists row. split; [exact H1|].
        eapply method_as_mono; [exact N4|]. eapply method_as_mono; [exact N3|exact H2].
    - intros j Hj. apply T4; [subst t; lia|]. apply T3, Hr. lia.
  Qed.

  Lemma resolve_types_run fuel m : forall n i s s', consistent p s -> loading n0 a0 s -> Forall (mine n0 a0 s) (seq (m + i) n) ->
    (i + n = List.length tds)%nat -> held m i s -> resolve_types fuel p md (seq (m + i) n) (N.of_nat i) s = Ok tt s' ->
    consistent p s' /\ within n0 a0 s s' /\ held m (List.length tds) s'.
  Proof.
    induction n as [|n IH]; intros i s s' W L F Hi H E; cbn [seq resolve_types] in E.
    - injection E as <-. split; [exact W|]. split; [apply within_refl|]. replace (List.length tds) with i by lia. exact H.
    - cbn [seq] in F. inversion F as [|? ? Mt F']; subst. apply bind_inv_ok in E as ([] & s1 & E1 & E).
      destruct (resolve_run _ _ _ _ _ W L Mt ltac:(lia) H E1) as (W1 & R1 & H1).
      replace (S (m + i)) with (m + S i)%nat in * by lia. replace (N.of_nat i + 1) with (N.of_nat (S i)) in E by lia.
      assert (F1 : Forall (mine n0 a0 s1) (seq (m + S i) n)).
      { eapply Forall_impl; [|exact F']. intros u Hu. exact (mine_within _ _ _ _ _ Hu R1). }
      destruct (IH _ _ _ W1 (loading_within _ _ _ _ L R1) F1 ltac:(lia) H1 E) as (W2 & R2 & H2).
      split; [exact W2|]. split; [eauto using within_trans|exact H2].
  Qed.

  (** ** What the types extend, are and implement *)

  (** No other type is touched, and every name means what it meant. *)
  Definition only (t : tref) (s s' : vm) : Prop :=
    forall u, u <> t -> (u < List.length (c_types s))%nat -> nth_error (c_types s') u = nth_error (c_types s) u.
  Definition names_le (s s' : vm) : Prop := forall n u, latest (c_types s) n u -> latest (c_types s') n u.

  Lemma only_trans t s1 s2 s3 : (List.length (c_types s1) <= List.length (c_types s2))%nat ->
    only t s1 s2 -> only t s2 s3 -> only t s1 s3.
  Proof. intros L A B u N H. rewrite B by (auto; lia). now apply A. Qed.
  Lemma only_appends t s s' : appends s s' -> only t s s'.
  Proof. intros A u _ H. now apply appends_nth. Qed.
  Lemma names_appends s s' : appends s s' -> names_le s s'.
  Proof.
    intros A n u [(ti & E & F) G]. split.
    - exists ti. split; [|exact F]. rewrite (appends_nth _ _ _ A); [exact E|exact (nth_lt _ _ _ E)].
    - intros j tj Hj Ej. destruct (Nat.lt_ge_cases j (List.length (c_types s))) as [L|L].
      + apply (G j tj Hj). rewrite <- (appends_nth _ _ _ A) by exact L. exact Ej.
      + rewrite <- F. exact (ap_names _ _ A _ _ _ _ E L Ej).
  Qed.
  Lemma latest_same_names ts ts' n u : (forall i, option_map ti_full_name (nth_error ts' i) = option_map ti_full_name (nth_error ts i)) ->
    latest ts n u -> latest ts' n u.
  Proof.
    intros H [(ti & E & F) G]. split.
    - specialize (H u). rewrite E in H. destruct (nth_error ts' u) as [x|]; [|discriminate]. exists x. split; [reflexivity|].
      cbn in H. injection H as H. congruence.
    - intros j tj Hj Ej. specialize (H j). rewrite Ej in H. destruct (nth_error ts j) as [x|] eqn:X; [|discriminate].
      cbn in H. injection H as H. rewrite H. exact (G j x Hj X).
  Qed.
  Lemma update_names t f (ts : list type_info) : (forall ti, ti_full_name (f ti) = ti_full_name ti) ->
    forall i, option_map ti_full_name (nth_error (update ts t f) i) = option_map ti_full_name (nth_error ts i).
  Proof. intros H i. rewrite nth_update. destruct (Nat.eqb t i); [|reflexivity]. destruct (nth_error ts i); cbn; congruence. Qed.
  Lemma names_modify t f s : (forall ti, ti_full_name (f ti) = ti_full_name ti) -> names_le s (set_types s (update (c_types s) t f)).
  Proof. intros H n u. apply latest_same_names. cbn [c_types set_types]. now apply update_names. Qed.
  Lemma only_modify t f s : only t s (set_types s (update (c_types s) t f)).
  Proof.
    intros u N _. cbn [c_types set_types]. rewrite nth_update. destruct (Nat.eqb t u) eqn:E; [|reflexivity].
    apply Nat.eqb_eq in E. congruence.
  Qed.
  Lemma modified t f s ti : nth_error (c_types s) t = Some ti ->
    nth_error (c_types (set_types s (update (c_types s) t f))) t = Some (f ti).
  Proof. intro E. cbn [c_types set_types]. now rewrite nth_update, Nat.eqb_refl, E. Qed.

  Hypothesis Htr : len (tb_type_ref (m_tables md)) < 2 ^ 64.

  Lemma row_name_of h n s s' : type_def_or_ref_name p md h s = Ok (Some n) s' ->
    exists tab k, h = named_ref tab k /\ row_name md tab k n.
  Proof.
    intro E. unfold type_def_or_ref_name in E. apply bind_inv_ok in E as ([nh nsh] & s1 & E1 & E).
    destruct (string_at md nh) as [x|] eqn:X; [|discriminate]. destruct (string_at md nsh) as [y|] eqn:Y; [|discriminate].
    injection E as <- <-. apply string_at_inv in X. apply string_at_inv in Y. destruct h as [tab k]. cbn [ref_table ref_index] in E1.
    assert (Lt : len (tb_type_def (m_tables md)) < 2 ^ 64).
    { pose proof (proj1 Hl). assert (2 ^ 24 < 2 ^ 64) by reflexivity. lia. }
    destruct tab; try discriminate; apply bind_inv_ok in E1 as (d & s2 & E1 & E2);
      apply (row_at_inv p) in E1 as [-> [K1 K2]]; try assumption; injection E2 as <- <- <-.
    - exists InTypeRef, k. split; [reflexivity|]. econstructor; eauto.
    - exists InTypeDef, k. split; [reflexivity|]. econstructor; eauto.
  Qed.

  Lemma resolve_base_as t j row ti s s' : consistent p s -> nth_error tds j = Some row ->
    nth_error (c_types s) t = Some ti -> ti_base ti = None -> resolve_base p md t (N.of_nat j) s = Ok tt s' ->
    only t s s' /\ names_le s s' /\ c_arena s' = c_arena s /\ exists o ti', extends md row o /\ nth_error (c_types s') t = Some ti' /\
      match o with None => ti_base ti' = None | Some n => exists b, ti_base ti' = Some b /\ latest (c_types s') n b end /\
      ti_fields ti' = ti_fields ti /\ ti_interfaces ti' = ti_interfaces ti.
  Proof.
    intros W Er Et Eb E. unfold resolve_base in E. cbn [handle_of_position] in E. fold tds in E.
    pose proof (proj1 Hl) as Ht. fold tds in Ht. pose proof (nth_lt _ _ _ Er) as Hj.
    apply bind_inv_ok in E as (d & s1 & E1 & E). apply row_at_nth in E1 as [-> Ed]; [|exact Ht|now apply small_pos].
    rewrite Er in Ed. injection Ed as <-.
    assert (K : forall X, X s = Ok tt s' -> X = (o <- type_def_or_ref_name p md (td_extends row) ;;
      b <- match o with Some n => get_type n | None => ret None end ;;
      b <- ok_or b "Unable to find base type" ;; modify_type t (with_base (Some b))) ->
      only t s s' /\ names_le s s' /\ c_arena s' = c_arena s /\ exists o ti', extends md row o /\ nth_error (c_types s') t = Some ti' /\
      match o with None => ti_base ti' = None | Some n => exists b, ti_base ti' = Some b /\ latest (c_types s') n b end /\
      ti_fields ti' = ti_fields ti /\ ti_interfaces ti' = ti_interfaces ti).
    { intros X R ->. apply bind_inv_ok in R as (o & s1 & E2 & R). pose proof (pures _ _ _ _ (pure_type_def_or_ref_name p md _) E2) as ->.
      apply bind_inv_ok in R as (b & s1 & E3 & R). destruct o as [n|]; [|injection E3 as <- <-; discriminate].
      pose proof (pures _ _ _ _ (pure_get_type n) E3) as ->. destruct b as [b|]; [|discriminate].
      apply get_type_latest with (1 := W) in E3. apply bind_inv_ok in R as (b' & s1 & E4 & R). injection E4 as <- <-.
      injection R as <-. split; [apply only_modify|]. split; [now apply names_modify|]. split; [reflexivity|].
      exists (Some n), (with_base (Some b) ti). split; [exact (row_name_of _ _ _ _ E2)|]. split; [now apply modified|].
      split; [|auto]. exists b. split; [reflexivity|]. apply names_modify; auto. }
    destruct (td_extends row) as [tab k] eqn:Ex. cbn [ref_table ref_index] in E.
    destruct tab; try (eapply K; [exact E|reflexivity]).
    destruct k; [|eapply K; [exact E|reflexivity]]. injection E as <-. split; [intros u _ _; reflexivity|].
    split; [intros n u H; exact H|]. split; [reflexivity|]. exists None, ti. split; [exact Ex|]. auto.
  Qed.

  Lemma resolve_kind_as t j row ti o s s' : nth_error tds j = Some row -> nth_error (c_types s) t = Some ti ->
    match o with None => ti_base ti = None | Some n => exists b, ti_base ti = Some b /\ latest (c_types s) n b end ->
    resolve_kind p md t (N.of_nat j) s = Ok tt s' ->
    only t s s' /\ names_le s s' /\ c_arena s' = c_arena s /\
    exists k, kind_of row o k /\ nth_error (c_types s') t = Some (with_kind (Some k) ti).
  Proof.
    intros Er Et Eb E. unfold resolve_kind in E. cbn [handle_of_position] in E. fold tds in E.
    pose proof (proj1 Hl) as Ht. fold tds in Ht. pose proof (nth_lt _ _ _ Er) as Hj.
    apply bind_inv_ok in E as (d & s1 & E1 & E). apply row_at_nth in E1 as [-> Ed]; [|exact Ht|now apply small_pos].
    rewrite Er in Ed. injection Ed as <-.
    apply bind_inv_ok in E as (ti' & s1 & E2 & E). pose proof (pures _ _ _ _ (pure_the_type t) E2) as ->.
    unfold the_type in E2. rewrite Et in E2. injection E2 as <-. apply bind_inv_ok in E as (k & s1 & E3 & E).
    assert (s1 = s /\ kind_of row o k) as [-> Hk].
    { destruct (ta_semantics (td_attributes row)) eqn:Sem; [|injection E3 as <- <-; split; [reflexivity|now constructor]].
      destruct o as [n|].
      - destruct Eb as (b & Eb & (bi & Bi & Bn) & _). rewrite Eb in E3. apply bind_inv_ok in E3 as (bi' & s2 & X & Y).
        pose proof (pures _ _ _ _ (pure_the_type b) X) as ->. unfold the_type in X. rewrite Bi in X. injection X as <-.
        injection Y as <- <-. split; [reflexivity|]. rewrite Bn.
        destruct (bytes_eqb n (bytes_of_string "System.ValueType")) eqn:C1; [apply bytes_eqb_spec in C1; apply a_struct; [exact Sem|now rewrite C1]|].
        destruct (bytes_eqb n (bytes_of_string "System.Array")) eqn:C2; [apply bytes_eqb_spec in C2; apply an_array; [exact Sem|now rewrite C2]|].
        destruct (bytes_eqb n (bytes_of_string "System.Enum")) eqn:C3; [apply bytes_eqb_spec in C3; apply an_enum; [exact Sem|now rewrite C3]|].
        apply a_class; [exact Sem| | |]; intro Q; injection Q as Q; apply bytes_eqb_spec in Q; congruence.
      - rewrite Eb in E3. injection E3 as <- <-. split; [reflexivity|]. apply a_class; [exact Sem| | |]; discriminate. }
    injection E as <-. split; [apply only_modify|]. split; [now apply names_modify|]. split; [reflexivity|].
    exists k. split; [exact Hk|]. now apply modified.
  Qed.

  (** The parts of a type that loading its members leaves alone. *)
  Definition shape (ti : type_info) := (ti_base ti, ti_kind ti, ti_interfaces ti).

  Lemma load_fields_as fuel t : forall n i off s s' l ti, consistent p s -> loading n0 a0 s -> mine n0 a0 s t ->
    fields_of s l -> nth_error (c_types s) t = Some ti -> load_fields fuel p md t n i off s = Ok tt s' ->
    only t s s' /\ names_le s s' /\ exists lf ti', nth_error (c_types s') t = Some ti' /\ shape ti' = shape ti /\
      ti_fields ti' = ti_fields ti ++ lf /\ fields_of s' (l ++ lf).
  Proof.
    induction n as [|n IH]; intros i off s s' l ti W L Mt F Et E; cbn [load_fields] in E.
    - injection E as <-. split; [intros u _ _; reflexivity|]. split; [intros m u H; exact H|]. exists [], ti. rewrite !app_nil_r. auto.
    - apply bind_inv_ok in E as (fi & s1 & E1 & E).
      destruct (pres_run_ok _ _ _ _ _ _ _ (load_field_pres p md t i off s (mine_ref _ _ _ _ Mt)) W E1) as (W1 & A1 & V1).
      pose proof (appends_within n0 a0 _ _ (proj1 L) A1) as R1.
      pose proof (loading_within _ _ _ _ L R1) as L1. pose proof (mine_within _ _ _ _ _ Mt R1) as M1.
      assert (Et1 : nth_error (c_types s1) t = Some ti).
      { rewrite (appends_nth _ _ _ A1); [exact Et|exact (nth_lt _ _ _ Et)]. }
      apply bind_inv_ok in E as ([] & s2 & E2 & E).
      assert (P2 : pres p (within n0 a0) s1 (modify_type t (with_field fi)) (fun _ _ => True)).
      { apply modify_type_pres; [apply Mt|intro; repeat split|].
        intros x (A & B & D & G & H & J & K). repeat split; auto.
        - apply Forall_app. split; [exact D|]. constructor; [exact V1|constructor].
        - constructor; [exact V1|exact J]. }
      destruct (pres_run_ok _ _ _ _ _ _ _ P2 W1 E2) as (W2 & R2 & _).
      assert (T2 : fields_of s2 l /\ names_le s1 s2 /\ only t s1 s2 /\ nth_error (c_types s2) t = Some (with_field fi ti)).
      { injection E2 as <-. split; [apply (proj2 (still_appends _ _ A1)) in F; exact F|].
        split; [now apply names_modify|]. split; [apply only_modify|now apply modified]. }
      destruct T2 as (F2 & N2 & O2 & Et2).
      pose proof (loading_within _ _ _ _ L1 R2) as L2. pose proof (mine_within _ _ _ _ _ M1 R2) as M2.
      apply bind_inv_ok in E as (ti2 & s2' & E3 & E). pose proof (pures _ _ _ _ (pure_the_type t) E3) as ->.
      unfold the_type in E3. rewrite Et2 in E3. injection E3 as <-.
      assert (Ea : ti_assembly (with_field fi ti) = a0) by (destruct M2 as [_ (x & Ex & Ax)]; congruence). rewrite Ea in E.
      apply bind_inv_ok in E as ([] & s3 & E4 & E).
      match type of E4 with modify_assembly _ ?g _ = _ => set (h := g) in E4 end.
      assert (P3 : pres p (within n0 a0) s2 (modify_assembly a0 h) (fun _ _ => True)).
      { apply modify_assembly_pres. intros ai (A & B & D & G & H & J). repeat split; auto. apply Forall_app. split; [exact H|].
        constructor; [|constructor]. eapply v_field_mono; [|exact V1]. apply (wi_count _ _ _ _ R2). }
      destruct (pres_run_ok _ _ _ _ _ _ _ P3 W2 E4) as (W3 & R3 & _).
      pose proof (loading_within _ _ _ _ L2 R3) as L3. pose proof (mine_within _ _ _ _ _ M2 R3) as M3.
      assert (F3 : fields_of s3 (l ++ [fi]) /\ c_types s3 = c_types s2).
      { destruct F2 as (ai & Ei & Ef & Es). injection E4 as <-. split; [|reflexivity].
        exists (h ai). cbn [c_arena set_arena]. rewrite nth_update, Nat.eqb_refl, Ei. split; [reflexivity|]. cbn. split; [now rewrite Ef|exact Es]. }
      destruct F3 as [F3 T3].
      apply bind_inv_ok in E as (sz & s4 & E5 & E). pose proof (pures _ _ _ _ (pure_type_size p fuel _) E5) as ->.
      apply bind_inv_ok in E as (off' & s4 & E6 & E). pose proof (pures _ _ _ _ (pure_ovf _) E6) as ->.
      assert (Et3 : nth_error (c_types s3) t = Some (with_field fi ti)) by now rewrite T3.
      destruct (IH _ _ _ _ _ _ W3 L3 M3 F3 Et3 E) as (O4 & N4 & lf & ti' & Et' & Sh & Fl & Fs).
      split; [|split].
      + intros u Nu Lu. rewrite O4, T3, O2; auto.
        * now apply only_appends with (t := t).
        * pose proof (appends_count _ _ A1). lia.
        * rewrite T3. pose proof (appends_count _ _ A1). pose proof (wi_count _ _ _ _ R2). lia.
      + intros m u H. apply N4. rewrite T3. apply N2. now apply (names_appends _ _ A1).
      + exists (fi :: lf), ti'. split; [exact Et'|]. split; [exact Sh|]. rewrite <- app_assoc in Fs. split; [|exact Fs].
        rewrite Fl. cbn [ti_fields with_field]. now rewrite <- app_assoc.
  Qed.

  Lemma load_methods_as t : forall n i s s' ti, consistent p s -> loading n0 a0 s -> mine n0 a0 s t ->
    nth_error (c_types s) t = Some ti ->
    range_m n i (fun i => m <- load_method p md t i ;; modify_type t (with_method m)) s = Ok tt s' ->
    only t s s' /\ names_le s s' /\ c_arena s' = c_arena s /\ exists ti', nth_error (c_types s') t = Some ti' /\ shape ti' = shape ti /\
      ti_fields ti' = ti_fields ti.
  Proof.
    induction n as [|n IH]; intros i s s' ti W L Mt Et E; cbn [range_m] in E.
    - injection E as <-. split; [intros u _ _; reflexivity|]. split; [intros m u H; exact H|]. eauto.
    - apply bind_inv_ok in E as ([] & s2 & E0 & E). apply bind_inv_ok in E0 as (m & s1 & E1 & E2).
      pose proof (mine_ref _ _ _ _ Mt) as Vt.
      destruct (pres_run_ok _ _ _ _ _ _ _ (load_method_pres p md t i s Vt) W E1) as (W1 & A1 & V1).
      pose proof (appends_within n0 a0 _ _ (proj1 L) A1) as R1.
      pose proof (loading_within _ _ _ _ L R1) as L1. pose proof (mine_within _ _ _ _ _ Mt R1) as M1.
      assert (P2 : pres p (within n0 a0) s1 (modify_type t (with_method m)) (fun _ _ => True)).
      { apply modify_type_pres; [apply Mt|intro; repeat split|].
        intros x (A & B & D & G & H & J & K). repeat split; auto.
        - apply Forall_app. split; [exact G|]. constructor; [exact V1|constructor].
        - constructor; [exact V1|exact K]. }
      destruct (pres_run_ok _ _ _ _ _ _ _ P2 W1 E2) as (W2 & R2 & _).
      pose proof (loading_within _ _ _ _ L1 R2) as L2. pose proof (mine_within _ _ _ _ _ M1 R2) as M2.
      assert (Et1 : nth_error (c_types s1) t = Some ti).
      { rewrite (appends_nth _ _ _ A1); [exact Et|exact (nth_lt _ _ _ Et)]. }
      assert (T2 : c_arena s2 = c_arena s /\ names_le s1 s2 /\ only t s1 s2 /\ nth_error (c_types s2) t = Some (with_method m ti)).
      { injection E2 as <-. split; [exact (ap_arena _ _ A1)|]. split; [now apply names_modify|]. split; [apply only_modify|now apply modified]. }
      destruct T2 as (F2 & N2 & O2 & Et2).
      destruct (IH _ _ _ _ W2 L2 M2 Et2 E) as (O3 & N3 & F3 & ti' & Et' & Sh & Fl).
      split; [|split; [|split]].
      + intros u Nu Lu. rewrite O3, O2; auto.
        * now apply only_appends with (t := t).
        * pose proof (appends_count _ _ A1). lia.
        * pose proof (appends_count _ _ A1). pose proof (wi_count _ _ _ _ R2). lia.
      + intros q u H. apply N3, N2. now apply (names_appends _ _ A1).
      + congruence.
      + exists ti'. split; [exact Et'|]. split; [exact Sh|exact Fl].
  Qed.

  (** What a type extends and is. *)
  Definition based (ts : list type_info) (row : type_def_row) (ti : type_info) : Prop :=
    exists o k, extends md row o /\ kind_of row o k /\ ti_kind ti = Some k /\
      match o with None => ti_base ti = None | Some n => exists b, ti_base ti = Some b /\ latest ts n b end.
  Lemma based_le s s' row ti : names_le s s' -> based (c_types s) row ti -> based (c_types s') row ti.
  Proof.
    intros N (o & k & A & B & C & D). exists o, k. split; [exact A|]. split; [exact B|]. split; [exact C|].
    destruct o; [|exact D]. destruct D as (b & D1 & D2). eauto.
  Qed.

  (** After the first [i] types have been resolved. *)
  Record typed (m i : nat) (s : vm) : Prop := {
    ty_done : forall j, (j < i)%nat -> exists row ti, nth_error tds j = Some row /\ nth_error (c_types s) (m + j) = Some ti /\
      based (c_types s) row ti /\ ti_interfaces ti = [] /\ len (ti_fields ti) = fb (S j) - fb j /\
      forall l q f, fields_of s l -> nth_error (ti_fields ti) q = Some f -> nth_error l (N.to_nat (fb j - 1) + q) = Some f;
    ty_rest : forall j, (i <= j < List.length tds)%nat -> exists ti, nth_error (c_types s) (m + j) = Some ti /\
      ti_base ti = None /\ ti_fields ti = [] /\ ti_interfaces ti = [] }.

  Lemma fields_of_one s l l' : fields_of s l -> fields_of s l' -> l = l'.
  Proof. intros (a & A & <- & _) (b & B & <- & _). congruence. Qed.

  Lemma resolve_typed fuel m i s s' : consistent p s -> loading n0 a0 s -> mine n0 a0 s (m + i)%nat -> (i < List.length tds)%nat ->
    (m + List.length tds <= List.length (c_types s))%nat ->
    held m i s -> typed m i s -> resolve fuel p md (m + i)%nat (N.of_nat i) s = Ok tt s' -> typed m (S i) s' /\ names_le s s'.
  Proof.
    intros W L Mt Hi Hc [(l & F & Le & _) _ _] [Td Tr] E. unfold resolve in E. set (t := (m + i)%nat) in *.
    destruct (nth_error tds i) as [row|] eqn:Er; [|apply nth_error_None in Er; lia].
    destruct (Tr i ltac:(lia)) as (ti & Et & Eb & Ef & Ei). fold t in Et.
    apply bind_inv_ok in E as ([] & s1 & E1 & E).
    destruct (pres_run_ok _ _ _ _ _ _ _ (resolve_base_pres p md n0 a0 t _ s L Mt) W E1) as (W1 & R1 & _).
    pose proof (loading_within _ _ _ _ L R1) as L1. pose proof (mine_within _ _ _ _ _ Mt R1) as M1.
    destruct (resolve_base_as _ _ _ _ _ _ W Er Et Eb E1) as (O1 & N1 & A1 & o & ti1 & Ho & Et1 & B1 & Ef1 & Ei1).
    apply bind_inv_ok in E as ([] & s2 & E2 & E).
    destruct (pres_run_ok _ _ _ _ _ _ _ (resolve_kind_pres p md n0 a0 t _ s1 L1 M1) W1 E2) as (W2 & R2 & _).
    pose proof (loading_within _ _ _ _ L1 R2) as L2. pose proof (mine_within _ _ _ _ _ M1 R2) as M2.
    destruct (resolve_kind_as _ _ _ _ _ _ _ Er Et1 B1 E2) as (O2 & N2 & A2 & k & Hk & Et2).
    assert (F2 : fields_of s2 l) by (destruct F as (ai & Ea & Fa); exists ai; rewrite A2, A1; auto).
    apply bind_inv_ok in E as ([] & s3 & E3 & E4).
    destruct (resolve_fields_run _ _ _ _ _ _ W2 L2 M2 Hi F2 E3) as (W3 & R3 & _ & lf & F3 & Lf & _).
    pose proof (loading_within _ _ _ _ L2 R3) as L3. pose proof (mine_within _ _ _ _ _ M2 R3) as M3.
    assert (X3 : only t s2 s3 /\ names_le s2 s3 /\ exists lf ti', nth_error (c_types s3) t = Some ti' /\ shape ti' = shape (with_kind (Some k) ti1) /\
      ti_fields ti' = ti_fields (with_kind (Some k) ti1) ++ lf /\ fields_of s3 (l ++ lf)).
    { unfold resolve_fields in E3.
      apply bind_inv_ok in E3 as (d & x & Q & E3). pose proof (pures _ _ _ _ (pure_row_at p _ _) Q) as ->. clear Q.
      apply bind_inv_ok in E3 as (c & x & Q & E3). apply run_length_run in Q as [-> _]; [|apply Hl|exact Hi].
      apply bind_inv_ok in E3 as ([] & x & Q & E3). pose proof (pures _ _ _ _ (pure_reserve c) Q) as ->. clear Q.
      apply bind_inv_ok in E3 as (stop & x & Q & E3). pose proof (pures _ _ _ _ (pure_ovf _) Q) as ->. clear Q.
      apply bind_inv_ok in E3 as (tj & x & Q & E3). pose proof (pures _ _ _ _ (pure_the_type t) Q) as ->. clear Q.
      apply bind_inv_ok in E3 as (off & x & Q & E3).
      assert (x = s2) as -> by (destruct (ti_base tj); [exact (pures _ _ _ _ (pure_type_size p fuel _) Q)|now injection Q]). clear Q.
      apply bind_inv_ok in E3 as (ai & x & Q & E3). pose proof (pures _ _ _ _ (pure_the_assembly _) Q) as ->. clear Q.
      exact (load_fields_as _ _ _ _ _ _ _ _ _ W2 L2 M2 F2 Et2 E3). }
    destruct X3 as (O3 & N3 & lf' & ti3 & Et3 & Sh3 & Ff3 & F3').
    assert (lf' = lf) as -> by exact (app_inv_head _ _ _ (fields_of_one _ _ _ F3' F3)). clear F3'.
    assert (X4 : only t s3 s' /\ names_le s3 s' /\ c_arena s' = c_arena s3 /\ exists ti', nth_error (c_types s') t = Some ti' /\ shape ti' = shape ti3 /\
      ti_fields ti' = ti_fields ti3).
    { unfold resolve_methods in E4.
      apply bind_inv_ok in E4 as (d & x & Q & E4). pose proof (pures _ _ _ _ (pure_row_at p _ _) Q) as ->. clear Q.
      apply bind_inv_ok in E4 as (c & x & Q & E4). apply run_length_run in Q as [-> _]; [|apply Hl|exact Hi].
      apply bind_inv_ok in E4 as ([] & x & Q & E4). pose proof (pures _ _ _ _ (pure_reserve c) Q) as ->. clear Q.
      apply bind_inv_ok in E4 as (stop & x & Q & E4). pose proof (pures _ _ _ _ (pure_ovf _) Q) as ->. clear Q.
      exact (load_methods_as _ _ _ _ _ _ W3 L3 M3 Et3 E4). }
    destruct X4 as (O4 & N4 & A4 & ti4 & Et4 & Sh4 & Ff4).
    pose proof (wi_count _ _ _ _ R1) as C1. pose proof (wi_count _ _ _ _ R2) as C2. pose proof (wi_count _ _ _ _ R3) as C3.
    assert (Oall : forall j, (j < List.length tds)%nat -> j <> i -> nth_error (c_types s') (m + j) = nth_error (c_types s) (m + j)).
    { intros j Hj Nj. assert (m + j <> t)%nat by (subst t; lia). rewrite O4, O3, O2, O1 by (auto; lia). reflexivity. }
    assert (Nall : names_le s s') by (intros n u H; auto).
    pose proof (proj1 (proj2 Hl)) as Cf. fold tds in Cf.
    assert (Hn : List.length (map td_field_list tds) = List.length tds) by apply map_length.
    pose proof (bound_le _ _ Cf i ltac:(lia)) as [Bi _]. fold fb in Bi.
    split; [|exact Nall]. split.
    - intros j Hj. destruct (Nat.eq_dec j i) as [->|Nj].
      + exists row, ti4. split; [exact Er|]. split; [exact Et4|]. injection Sh4 as S1 S2 S3. injection Sh3 as S4 S5 S6.
        cbn [ti_base ti_kind ti_interfaces ti_fields with_kind] in *. split; [|split; [congruence|split]].
        * exists o, k. split; [exact Ho|]. split; [exact Hk|]. split; [congruence|]. rewrite S1, S4. destruct o as [n|]; [|exact B1].
          destruct B1 as (b & B1 & B2). exists b. split; [exact B1|]. auto.
        * rewrite Ff4, Ff3, Ef1, Ef. exact Lf.
        * intros l0 q f Fl X. assert (l0 = l ++ lf) as ->.
          { eapply fields_of_one; [exact Fl|]. destruct F3 as (ai & Ea & Fa). exists ai. rewrite A4. auto. }
          rewrite Ff4, Ff3, Ef1, Ef in X. cbn [app] in X. rewrite nth_error_app2 by (unfold len in Le; lia).
          replace (N.to_nat (fb i - 1) + q - List.length l)%nat with q by (unfold len in Le; lia). exact X.
      + destruct (Td j ltac:(lia)) as (r & u & D1 & D2 & D3 & D4 & D5 & D6). exists r, u. split; [exact D1|].
        split; [rewrite Oall by lia; exact D2|]. split; [eapply based_le; eauto|]. split; [exact D4|]. split; [exact D5|].
        intros l0 q f Fl X. assert (l0 = l ++ lf) as ->.
        { eapply fields_of_one; [exact Fl|]. destruct F3 as (ai & Ea & Fa). exists ai. rewrite A4. auto. }
        pose proof (D6 _ _ _ F X) as Y. rewrite nth_error_app1; [exact Y|exact (nth_lt _ _ _ Y)].
    - intros j Hj. rewrite Oall by lia. apply Tr. lia.
  Qed.

  Lemma resolve_types_typed fuel m : forall n i s s', consistent p s -> loading n0 a0 s -> Forall (mine n0 a0 s) (seq (m + i) n) ->
    (i + n = List.length tds)%nat -> (m + List.length tds <= List.length (c_types s))%nat -> held m i s -> typed m i s ->
    resolve_types fuel p md (seq (m + i) n) (N.of_nat i) s = Ok tt s' -> typed m (List.length tds) s' /\ names_le s s'.
  Proof.
    induction n as [|n IH]; intros i s s' W L F Hi Hc H T E; cbn [seq resolve_types] in E.
    - injection E as <-. replace (List.length tds) with i by lia. split; [exact T|intros x u X; exact X].
    - cbn [seq] in F. inversion F as [|? ? Mt F']; subst. apply bind_inv_ok in E as ([] & s1 & E1 & E).
      destruct (resolve_run _ _ _ _ _ W L Mt ltac:(lia) H E1) as (W1 & R1 & H1).
      destruct (resolve_typed _ _ _ _ _ W L Mt ltac:(lia) Hc H T E1) as [T1 N1].
      replace (S (m + i)) with (m + S i)%nat in * by lia. replace (N.of_nat i + 1) with (N.of_nat (S i)) in E by lia.
      assert (F1 : Forall (mine n0 a0 s1) (seq (m + S i) n)).
      { eapply Forall_impl; [|exact F']. intros u Hu. exact (mine_within _ _ _ _ _ Hu R1). }
      pose proof (wi_count _ _ _ _ R1) as C1.
      destruct (IH _ _ _ W1 (loading_within _ _ _ _ L R1) F1 ltac:(lia) ltac:(lia) H1 T1 E) as [T2 N2].
      split; [exact T2|]. intros x u X. auto.
  Qed.

  (** ** Interfaces *)

  (** One row adds one interface to the last type of its name. *)
  Lemma load_interface_impl_as ii s s' : consistent p s -> load_interface_impl p md ii s = Ok tt s' ->
    exists c t tab k i u, row_name md InTypeDef (ii_class ii) c /\ latest (c_types s) c t /\
      ii_interface ii = named_ref tab k /\ row_name md tab k i /\ latest (c_types s) i u /\
      s' = set_types s (update (c_types s) t (with_interface u)).
  Proof.
    intros W E. unfold load_interface_impl in E.
    assert (Lt : len (tb_type_def (m_tables md)) < 2 ^ 64).
    { pose proof (proj1 Hl). assert (2 ^ 24 < 2 ^ 64) by reflexivity. lia. }
    apply bind_inv_ok in E as (d & s1 & E1 & E). apply row_at_inv in E1 as [-> [K1 K2]]; [|exact Lt].
    apply bind_inv_ok in E as (fn & s1 & E2 & E). apply full_name_at_run in E2 as (-> & n & ns & Hn & Hns & ->).
    apply bind_inv_ok in E as (o & s1 & E3 & E). pose proof (pures _ _ _ _ (pure_get_type _) E3) as ->.
    apply bind_inv_ok in E as (t & s1 & E4 & E). destruct o as [t'|]; [|discriminate]. injection E4 as -> <-.
    apply get_type_latest with (1 := W) in E3.
    apply bind_inv_ok in E as (ifn & s1 & E5 & E).
    assert (X : s1 = s /\ exists tab k, ii_interface ii = named_ref tab k /\ row_name md tab k ifn).
    { destruct (ii_interface ii) as [tab k]. cbn [ref_table ref_index] in E5.
      destruct tab; try discriminate; apply bind_inv_ok in E5 as (x & s2 & E5 & E6);
        apply row_at_inv in E5 as [-> [K3 K4]]; try assumption;
        apply full_name_at_run in E6 as (-> & a & b & Ha & Hb & ->); split; try reflexivity.
      - exists InTypeRef, k. split; [reflexivity|]. econstructor; eauto.
      - exists InTypeDef, k. split; [reflexivity|]. econstructor; eauto. }
    destruct X as (-> & tab & k & X1 & X2).
    apply bind_inv_ok in E as (o2 & s1 & E6 & E). pose proof (pures _ _ _ _ (pure_get_type _) E6) as ->.
    apply bind_inv_ok in E as (u & s1 & E7 & E). destruct o2 as [u'|]; [|discriminate]. injection E7 as -> <-.
    apply get_type_latest with (1 := W) in E6. injection E as <-.
    exists (qualified n ns), t, tab, k, ifn, u. split; [econstructor; eauto|]. auto 6.
  Qed.

  Lemma latest_one ts n t u : latest ts n t -> latest ts n u -> t = u.
  Proof.
    intros [(ti & A & B) C] [(ui & D & E) F]. destruct (Nat.lt_trichotomy t u) as [H|[H|H]]; [|exact H|].
    - exfalso. exact (C _ _ H D E).
    - exfalso. exact (F _ _ H A B).
  Qed.

  (** All rows: what a type has been given on top of what it had. *)
  Lemma load_interfaces_as : forall rows s s', consistent p s -> loading n0 a0 s -> rows_named p md n0 s ->
    iter_m (load_interface_impl p md) rows s = Ok tt s' ->
    (forall n u, latest (c_types s') n u <-> latest (c_types s) n u) /\ c_arena s' = c_arena s /\
    forall t ti, nth_error (c_types s) t = Some ti -> exists ti' l, nth_error (c_types s') t = Some ti' /\
      ti_base ti' = ti_base ti /\ ti_kind ti' = ti_kind ti /\ ti_fields ti' = ti_fields ti /\ ti_full_name ti' = ti_full_name ti /\
      ti_interfaces ti' = ti_interfaces ti ++ l /\
      (latest (c_types s) (ti_full_name ti) t -> exists names, implements md (ti_full_name ti) rows names /\ Forall2 (latest (c_types s)) names l) /\
      (~ latest (c_types s) (ti_full_name ti) t -> l = []).
  Proof.
    induction rows as [|ii rows IH]; intros s s' W L RN E; cbn [iter_m] in E.
    - injection E as <-. split; [reflexivity|]. split; [reflexivity|]. intros t ti Et. exists ti, []. rewrite app_nil_r.
      repeat (split; [auto|]); [|auto]. intros _. exists []. split; constructor.
    - apply bind_inv_ok in E as ([] & s1 & E1 & E).
      destruct (pres_run_ok _ _ _ _ _ _ _ (load_interface_impl_pres p md n0 a0 ii s L RN) W E1) as (W1 & R1 & _).
      destruct (load_interface_impl_as _ _ _ W E1) as (c & t0 & tab & k & i & u & Hc & Lc & Hi & Ni & Li & Es1).
      destruct (IH _ _ W1 (loading_within _ _ _ _ L R1) (rows_named_within _ _ _ _ _ _ RN R1) E) as (N & A & D).
      assert (N1 : forall n v, latest (c_types s1) n v <-> latest (c_types s) n v).
      { intros n v. rewrite Es1. split; apply latest_same_names; intro x; [symmetry|]; now apply update_names. }
      split; [intros n v; now rewrite N|]. split; [rewrite A, Es1; reflexivity|]. intros t ti Et.
      assert (K : exists ti1 l1, nth_error (c_types s1) t = Some ti1 /\ ti_base ti1 = ti_base ti /\ ti_kind ti1 = ti_kind ti /\
        ti_fields ti1 = ti_fields ti /\ ti_full_name ti1 = ti_full_name ti /\ ti_interfaces ti1 = ti_interfaces ti ++ l1 /\
        (t = t0 /\ l1 = [u] \/ t <> t0 /\ l1 = [])).
      { destruct (Nat.eq_dec t t0) as [->|Nt].
        - exists (with_interface u ti), [u]. rewrite Es1. split; [now apply modified|]. repeat (split; [reflexivity|]). auto.
        - exists ti, []. rewrite Es1, app_nil_r. split; [rewrite only_modify; auto; exact (nth_lt _ _ _ Et)|]. repeat (split; [reflexivity|]). auto. }
      destruct K as (ti1 & l1 & Et1 & K1 & K2 & K3 & K4 & K5 & K6).
      destruct (D _ _ Et1) as (ti' & l & Et' & D1 & D2 & D3 & D4 & D5 & D6 & D7). rewrite K4 in D6, D7.
      exists ti', (l1 ++ l). split; [exact Et'|]. split; [congruence|]. split; [congruence|]. split; [congruence|]. split; [congruence|].
      split; [rewrite D5, K5; now rewrite app_assoc|]. split.
      + intro Lt. destruct D6 as (names & I & F2); [now apply N1|].
        assert (F2' : Forall2 (latest (c_types s)) names l).
        { clear - F2 N1. induction F2; constructor; auto. now apply N1. }
        destruct K6 as [(-> & ->)|(Nt & ->)].
        * exists (i :: names). split; [|constructor; assumption]. destruct Lt as [(x & Ex & Fx) _], Lc as [(y & Ey & Fy) _].
          assert (c = ti_full_name ti) as -> by congruence. eapply row_for_it; eauto.
        * exists names. split; [|exact F2']. eapply row_for_another; eauto. intros ->. apply Nt. exact (latest_one _ _ _ _ Lt Lc).
      + intro Nl. destruct K6 as [(-> & ->)|(Nt & ->)].
        * exfalso. apply Nl. destruct Lc as [(y & Ey & Fy) Ly]. assert (c = ti_full_name ti) as -> by congruence.
          split; [eauto|exact Ly].
        * cbn. apply D7. now rewrite N1.
  Qed.

  (** ** The names of the types *)

  Definition blank (ti : type_info) : Prop :=
    ti_methods ti = [] /\ ti_base ti = None /\ ti_fields ti = [] /\ ti_interfaces ti = [].
  Lemma load_type_as i s t s' : (i < List.length tds)%nat -> load_type p md a0 (N.of_nat i) s = Ok t s' ->
    c_arena s' = c_arena s /\ exists row ti, nth_error tds i = Some row /\ c_types s' = c_types s ++ [ti] /\
      type_as md a0 row ti /\ blank ti.
  Proof.
    intros Hi E. unfold load_type in E. cbn [handle_of_position] in E. fold tds in E. pose proof (proj1 Hl) as Ht. fold tds in Ht.
    apply bind_inv_ok in E as (d & s1 & E1 & E). apply row_at_nth in E1 as [-> Ed]; [|exact Ht|now apply small_pos].
    apply bind_inv_ok in E as (x & s1 & E2 & E). apply string_run in E2 as [-> Hx].
    apply bind_inv_ok in E as (y & s1 & E3 & E). apply string_run in E3 as [-> Hy].
    apply bind_inv_ok in E as (id & s1 & E4 & E). unfold next_type_id in E4. destruct (u_add _ _ _ _); [|discriminate].
    injection E4 as _ <-. unfold add_type in E. cbn in E. injection E as <- <-. cbn. split; [reflexivity|].
    eexists _, _. split; [exact Ed|]. split; [reflexivity|]. split; [split; cbn; auto|]. repeat split.
  Qed.
  Lemma load_types_as : forall n i s ts s', (i + n <= List.length tds)%nat -> load_types p md a0 n (N.of_nat i) s = Ok ts s' ->
    c_arena s' = c_arena s /\ ts = seq (List.length (c_types s)) n /\ (exists l, c_types s' = c_types s ++ l /\ List.length l = n) /\
    forall j, (j < n)%nat -> exists row ti, nth_error tds (i + j) = Some row /\
      nth_error (c_types s') (List.length (c_types s) + j) = Some ti /\ type_as md a0 row ti /\ blank ti.
  Proof.
    induction n as [|n IH]; intros i s ts s' Hi E.
    - cbn [load_types] in E. injection E as <- <-. split; [reflexivity|]. split; [reflexivity|].
      split; [exists []; now rewrite app_nil_r|]. intros j Hj. lia.
    - pose proof (load_types_run _ _ _ _ _ _ _ _ E) as Ts. cbn [load_types] in E. apply bind_inv_ok in E as (t & s1 & E1 & E).
      assert (Ki : (i < List.length tds)%nat) by lia. assert (Kj : (S i + n <= List.length tds)%nat) by lia.
      destruct (load_type_as _ _ _ _ Ki E1) as (A1 & row & ti & Hr & T1 & As & Me).
      apply bind_inv_ok in E as (l & s2 & E2 & E). injection E as <- <-.
      replace (N.of_nat i + 1) with (N.of_nat (S i)) in E2 by lia.
      destruct (IH _ _ _ _ Kj E2) as (A2 & _ & (l2 & T2 & Len2) & D). rewrite T1 in T2.
      split; [congruence|]. split; [exact Ts|]. split; [exists (ti :: l2); rewrite T2, <- app_assoc; split; [reflexivity|cbn; now rewrite Len2]|].
      intros [|j] Hj.
      + exists row, ti. rewrite Nat.add_0_r. split; [exact Hr|]. split; [|auto].
        rewrite T2, <- app_assoc, Nat.add_0_r, nth_error_app2, Nat.sub_diag by lia. reflexivity.
      + destruct (D j ltac:(lia)) as (row' & ti' & H1 & H2 & H3 & H4). exists row', ti'.
        replace (i + S j)%nat with (S i + j)%nat by lia. split; [exact H1|]. split; [|auto].
        rewrite T1, app_length in H2. cbn [List.length] in H2.
        replace (List.length (c_types s) + S j)%nat with (List.length (c_types s) + 1 + j)%nat by lia. exact H2.
  Qed.

  (** ** Everything *)

  Lemma concat_bound {A} (b : nat -> N) : forall (ls : list (list A)) i,
    (forall j l, nth_error ls j = Some l -> len l = b (S (i + j)) - b (i + j)%nat) ->
    (forall j, (j < List.length ls)%nat -> b (i + j)%nat <= b (S (i + j))) ->
    b i + len (concat ls) = b (i + List.length ls)%nat /\
    forall q x, nth_error (concat ls) q = Some x ->
      exists j l q', nth_error ls j = Some l /\ nth_error l q' = Some x /\ b i + N.of_nat q = b (i + j)%nat + N.of_nat q'.
  Proof.
    induction ls as [|l ls IH]; intros i Hlen Hmon; cbn [concat].
    - split; [cbn [List.length]; rewrite Nat.add_0_r, len_nil; lia|]. intros [|q] x X; discriminate.
    - destruct (IH (S i)) as [A1 A2].
      + intros j k E. replace (S i + j)%nat with (i + S j)%nat by lia. now apply Hlen.
      + intros j Hj. replace (S i + j)%nat with (i + S j)%nat by lia. apply Hmon. cbn. lia.
      + pose proof (Hlen 0%nat l eq_refl) as L0. pose proof (Hmon 0%nat ltac:(cbn; lia)) as M0. rewrite Nat.add_0_r in L0, M0.
        split.
        * cbn [List.length]. replace (i + S (List.length ls))%nat with (S i + List.length ls)%nat by lia. rewrite <- A1.
          unfold len in *. rewrite app_length. lia.
        * intros q x X. destruct (Nat.lt_ge_cases q (List.length l)) as [Q|Q].
          -- rewrite nth_error_app1 in X by exact Q. exists 0%nat, l, q. rewrite Nat.add_0_r. auto.
          -- rewrite nth_error_app2 in X by exact Q. destruct (A2 _ _ X) as (j & k & q' & H1 & H2 & H3).
             exists (S j), k, q'. replace (i + S j)%nat with (S i + j)%nat by lia. split; [exact H1|]. split; [exact H2|].
             unfold len in *. lia.
  Qed.
  Lemma concat_nth {A} (b : nat -> N) : forall (ls : list (list A)) i,
    (forall j l, nth_error ls j = Some l -> len l = b (S (i + j)) - b (i + j)%nat) ->
    (forall j, (j < List.length ls)%nat -> b (i + j)%nat <= b (S (i + j))) ->
    forall j l q x, nth_error ls j = Some l -> nth_error l q = Some x ->
      b i <= b (i + j)%nat /\ nth_error (concat ls) (N.to_nat (b (i + j)%nat - b i) + q) = Some x.
  Proof.
    induction ls as [|l0 ls IH]; intros i Hlen Hmon j l q x Ej Eq; [destruct j; discriminate|]. cbn [concat].
    pose proof (Hlen 0%nat l0 eq_refl) as L0. pose proof (Hmon 0%nat ltac:(cbn; lia)) as M0. rewrite Nat.add_0_r in L0, M0.
    destruct j as [|j]; cbn in Ej.
    - injection Ej as ->. rewrite Nat.add_0_r. split; [lia|]. rewrite N.sub_diag. cbn [N.to_nat Nat.add].
      rewrite nth_error_app1; [exact Eq|exact (nth_lt _ _ _ Eq)].
    - destruct (IH (S i)) with (j := j) (l := l) (q := q) (x := x) as [A1 A2]; auto.
      + intros k y E. replace (S i + k)%nat with (i + S k)%nat by lia. now apply Hlen.
      + intros k Hk. replace (S i + k)%nat with (i + S k)%nat by lia. apply Hmon. cbn. lia.
      + replace (S i + j)%nat with (i + S j)%nat in A1, A2 by lia. split; [lia|]. unfold len in L0.
        rewrite nth_error_app2 by lia.
        replace (N.to_nat (b (i + S j)%nat - b i) + q - List.length l0)%nat with (N.to_nat (b (i + S j)%nat - b (S i)) + q)%nat by lia.
        exact A2.
  Qed.
  Lemma map_methods s : forall ts defs s', map_m (fun t => ti <- the_type t ;; ret (ti_methods ti)) ts s = Ok defs s' ->
    s' = s /\ List.length defs = List.length ts /\
    forall j l, nth_error defs j = Some l -> exists t, nth_error ts j = Some t /\ methods_of s t l.
  Proof.
    induction ts as [|t ts IH]; intros defs s' E; cbn [map_m] in E.
    - injection E as <- <-. split; [reflexivity|]. split; [reflexivity|]. intros [|j] l X; discriminate.
    - apply bind_inv_ok in E as (l & s1 & E1 & E). apply bind_inv_ok in E1 as (ti & s2 & E1 & E2).
      pose proof (pures _ _ _ _ (pure_the_type t) E1) as ->. unfold the_type in E1.
      destruct (nth_error (c_types s) t) as [x|] eqn:Et; [|discriminate]. injection E1 as ->. injection E2 as <- <-.
      apply bind_inv_ok in E as (ls & s1 & E2 & E). injection E as <- <-.
      destruct (IH _ _ E2) as (-> & Len & D). split; [reflexivity|]. split; [cbn; now rewrite Len|].
      intros [|j] k X; cbn in X.
      + injection X as <-. exists t. split; [reflexivity|]. exists ti. auto.
      + exact (D _ _ X).
  Qed.

  (** What the assembly object says about the rows of its tables. *)
  Record filled (m : nat) (s : vm) (ai : assembly_info) : Prop := {
    fl_types : a_types ai = seq m (List.length tds) /\
      forall j, (j < List.length tds)%nat -> exists row ti, nth_error tds j = Some row /\
        nth_error (c_types s) (m + j) = Some ti /\ type_as md a0 row ti;
    fl_fields : len (a_fields ai) = len (tb_field (m_tables md)) /\
      forall q f, nth_error (a_fields ai) q = Some f -> exists j row, (j < List.length tds)%nat /\ fb j <= N.of_nat q + 1 < fb (S j) /\
        row_of (tb_field (m_tables md)) (N.of_nat q + 1) row /\ field_as md (c_types s) row (m + j)%nat f;
    fl_methods : len (a_method_defs ai) = len (tb_method_def (m_tables md)) /\
      forall q x, nth_error (a_method_defs ai) q = Some x -> exists j row, (j < List.length tds)%nat /\ mb j <= N.of_nat q + 1 < mb (S j) /\
        row_of (tb_method_def (m_tables md)) (N.of_nat q + 1) row /\ method_as md (c_types s) row (m + j)%nat x;
    fl_shape : forall j, (j < List.length tds)%nat -> exists row ti, nth_error tds j = Some row /\
      nth_error (c_types s) (m + j) = Some ti /\ type_shape md (c_types s) row (m + j)%nat ti /\
      len (ti_fields ti) = fb (S j) - fb j /\
      (forall q f, nth_error (ti_fields ti) q = Some f -> nth_error (a_fields ai) (N.to_nat (fb j - 1) + q) = Some f) /\
      len (ti_methods ti) = mb (S j) - mb j /\
      (forall q x, nth_error (ti_methods ti) q = Some x -> nth_error (a_method_defs ai) (N.to_nat (mb j - 1) + q) = Some x);
    fl_latest : forall j n, (j < List.length tds)%nat -> is_named (c_types s) (m + j)%nat n ->
      (forall i, (j < i < List.length tds)%nat -> ~ is_named (c_types s) (m + i)%nat n) -> latest (c_types s) n (m + j)%nat }.

  Lemma load_contents_run fuel s s' : consistent p s -> loading n0 a0 s -> fields_of s [] -> snd st = None ->
    load_contents fuel p md a0 s = Ok tt s' ->
    exists ai, nth_error (c_arena s') a0 = Some (Some ai) /\ filled (List.length (c_types s)) s' ai /\
      (a_name ai, a_user_strings ai, a_method_refs ai, a_type_refs ai) = fst st /\
      match m_entry_point md with
      | None => a_entry ai = None
      | Some ep => exists x, a_entry ai = Some x /\ resolve_method p a0 (token_new ep TMethodDef) s' = Ok (Some x) s'
      end.
  Proof.
    intros W L F Hst E. unfold load_contents in E. set (m := List.length (c_types s)).
    apply bind_inv_ok in E as (ts & s1 & E1 & E). fold tds in E1.
    destruct (pres_run_ok _ _ _ _ _ _ _ (load_types_pres p md n0 a0 _ _ s L) W E1) as (W1 & R1 & M1 & _).
    destruct (load_types_as (List.length tds) 0 _ _ _ (Nat.le_refl _) E1) as (A1 & -> & (l1 & T1 & Len1) & D1). fold m in D1, M1, E.
    pose proof (loading_within _ _ _ _ L R1) as L1. set (n := List.length tds) in *.
    pose proof Hl as (Ht & Cf & Cm). fold tds in Ht, Cf, Cm.
    assert (Hnf : List.length (map td_field_list tds) = n) by apply map_length.
    assert (Hnm : List.length (map td_method_list tds) = n) by apply map_length.
    assert (H1 : held m 0 s1).
    { split.
      - exists []. split; [destruct F as (ai & Ei & Fi); exists ai; rewrite A1; auto|]. split.
        + rewrite len_nil. symmetry. exact (bound_first _ _ Cf).
        + intros [|q] f X; discriminate.
      - intros j Hj. lia.
      - intros j Hj. destruct (D1 j) as (row & ti & _ & X & _ & Y); [subst n; lia|]. exists ti. split; [exact X|apply Y]. }
    assert (H1' : typed m 0 s1).
    { split; [intros j Hj; lia|]. intros j Hj. destruct (D1 j) as (row & ti & _ & X & _ & Y); [subst n; lia|]. exists ti.
      split; [exact X|apply Y]. }
    assert (Hc : (m + List.length tds <= List.length (c_types s1))%nat).
    { fold n. destruct n as [|n']; [pose proof (wi_count _ _ _ _ R1); subst m; lia|].
      destruct (D1 n' (Nat.lt_succ_diag_r _)) as (row & ti & _ & X & _). apply nth_lt in X. lia. }
    apply bind_inv_ok in E as ([] & s2 & E2 & E).
    replace m with (m + 0)%nat in M1 by lia. replace (seq m n) with (seq (m + 0) n) in E2 by now rewrite Nat.add_0_r.
    destruct (resolve_types_run fuel m n 0 s1 s2 W1 L1 M1 eq_refl H1 E2) as (W2 & R2 & H2). fold n in H2.
    destruct (resolve_types_typed fuel m n 0 s1 s2 W1 L1 M1 eq_refl Hc H1 H1' E2) as [T2 N2]. fold n in T2.
    pose proof (loading_within _ _ _ _ L1 R2) as L2.
    destruct (pres_run_ok _ _ _ _ _ _ _ (load_types_pres p md n0 a0 _ _ s L) W E1) as (_ & _ & _ & _ & N1).
    assert (RN : rows_named p md n0 s2).
    { eapply rows_named_within; [|exact R2]. apply rows_named_all. intros j Hj. apply N1. unfold len in Hj. fold tds in Hj. fold n in Hj. lia. }
    apply bind_inv_ok in E as ([] & s3 & E3 & E).
    assert (H3 : consistent p s3 /\ within n0 a0 s2 s3 /\ held m n s3).
    { clear - E3 W2 L2 H2 RN. revert s2 W2 L2 H2 RN E3. induction (tb_interface_impl (m_tables md)) as [|ii l IH]; intros s2 W2 L2 H2 RN E3; cbn [iter_m] in E3.
      - injection E3 as <-. auto using within_refl.
      - apply bind_inv_ok in E3 as ([] & s4 & X & E3).
        destruct (pres_run_ok _ _ _ _ _ _ _ (load_interface_impl_pres p md n0 a0 ii s2 L2 RN) W2 X) as (W4 & R4 & _).
        destruct (IH s4 W4 (loading_within _ _ _ _ L2 R4)) as (A & B & C); auto.
        + eapply held_still; [exact (load_interface_impl_still _ _ _ X)|exact (named_le_within _ _ _ _ R4)|exact H2].
        + eapply rows_named_within; eauto.
        + split; [exact A|]. split; [eapply within_trans; eauto|exact C]. }
    destruct (load_interfaces_as _ _ _ W2 L2 RN E3) as (N3 & A3 & Q3).
    destruct H3 as (W3 & R3 & H3). destruct H3 as [(fl & (ai & Ea & Ef & Es) & Fl & Fd) Hm _].
    assert (D3 : forall j, (j < n)%nat -> exists row ti, nth_error tds j = Some row /\
        nth_error (c_types s3) (m + j) = Some ti /\ type_as md a0 row ti).
    { intros j Hj. destruct (D1 j Hj) as (row & ti & X & Y & Z & _).
      destruct (wi_types _ _ _ _ (within_trans _ _ _ _ _ R2 R3) _ _ Y) as (ti' & Y' & I). exists row, ti'.
      split; [exact X|]. split; [exact Y'|]. destruct Z as [Z1 Z2 Z3 Z4]. destruct I as (I1 & I2 & I3 & I4 & I5 & I6).
      split; congruence. }
    assert (S3 : forall j, (j < n)%nat -> exists row ti, nth_error tds j = Some row /\ nth_error (c_types s3) (m + j) = Some ti /\
        type_shape md (c_types s3) row (m + j)%nat ti /\ len (ti_fields ti) = fb (S j) - fb j /\
        forall q f, nth_error (ti_fields ti) q = Some f -> nth_error fl (N.to_nat (fb j - 1) + q) = Some f).
    { intros j Hj. destruct (ty_done _ _ _ T2 j Hj) as (row & ti & G1 & G2 & (o & k & G3 & G4 & G5 & G6) & G7 & G8 & G9).
      destruct (Q3 _ _ G2) as (ti' & l & J1 & J2 & J3 & J4 & J5 & J6 & J7 & J8). exists row, ti'. split; [exact G1|]. split; [exact J1|].
      rewrite G7 in J6. cbn [app] in J6. split; [|split; [now rewrite J4|]].
      - split.
        + exists o, k. split; [exact G3|]. split; [exact G4|]. split; [congruence|]. rewrite J2. destruct o as [x|]; [|exact G6].
          destruct G6 as (b & B1 & B2). exists b. split; [exact B1|]. now apply N3.
        + rewrite J5, J6. intro Lt. destruct J7 as (names & P1 & P2); [now apply N3|]. exists names. split; [exact P1|].
          clear - P2 N3. induction P2; constructor; auto. now apply N3.
        + rewrite J5, J6. intro Lt. apply J8. now rewrite <- N3.
      - intros q f X. rewrite J4 in X. apply (G9 fl _ _); [|exact X]. exists ai. rewrite <- A3. auto. }
    assert (Lt3 : forall j x, (j < n)%nat -> is_named (c_types s3) (m + j)%nat x ->
      (forall i, (j < i < n)%nat -> ~ is_named (c_types s3) (m + i)%nat x) -> latest (c_types s3) x (m + j)%nat).
    { intros j x Hj Nx Nlater. apply N3, N2. pose proof (within_trans _ _ _ _ _ R2 R3) as R23.
      assert (Same : forall i y, (i < n)%nat -> is_named (c_types s1) (m + i)%nat y <-> is_named (c_types s3) (m + i)%nat y).
      { intros i y Hi. split; [apply (named_le_within _ _ _ _ R23)|]. intros (t3 & G1 & G2).
        destruct (D1 i Hi) as (r & t1 & _ & G3 & _). destruct (wi_types _ _ _ _ R23 _ _ G3) as (t3' & G4 & G5).
        exists t1. split; [exact G3|]. destruct G5 as (_ & _ & _ & G5 & _). congruence. }
      split; [apply Same; assumption|]. intros u ui Hu Eu. pose proof (nth_lt _ _ _ Eu) as Lu. rewrite T1, app_length, Len1 in Lu. fold m in Lu.
      intro Nu. apply (Nlater (u - m)%nat); [lia|]. apply Same; [lia|]. replace (m + (u - m))%nat with u by lia. exists ui. auto. }
    apply bind_inv_ok in E as ([] & s4 & E4 & E). injection E4 as <-.
    apply bind_inv_ok in E as (defs & s5 & E5 & E). apply map_methods in E5 as (-> & Ld & Dd). rewrite seq_length in Ld.
    apply bind_inv_ok in E as ([] & s6 & E6 & E). injection E6 as <-.
    set (s6 := set_arena _ _) in E. set (bi := with_method_defs (concat defs) (with_types (seq m n) ai)).
    assert (E6 : nth_error (c_arena s6) a0 = Some (Some bi)).
    { subst s6. cbn [c_arena set_arena]. rewrite !nth_update, !Nat.eqb_refl, Ea. reflexivity. }
    assert (T6 : c_types s6 = c_types s3) by reflexivity. clearbody s6.
    assert (Fi : forall x ci, c_types x = c_types s3 -> a_types ci = seq m n -> a_fields ci = fl -> a_method_defs ci = concat defs -> filled m x ci).
    { intros x ci Hx C1 C2 C3.
      assert (Hlen : forall j l, nth_error defs j = Some l -> len l = mb (S (0 + j)) - mb (0 + j)%nat).
      { intros j l X. destruct (Dd _ _ X) as (t & Y & Z). pose proof (nth_lt _ _ _ X) as Hj. rewrite Ld in Hj.
        assert (t = (m + j)%nat) as ->.
        { rewrite (nth_error_nth' _ 0%nat) in Y by (rewrite seq_length; exact Hj). rewrite seq_nth in Y by exact Hj. congruence. }
        destruct (Hm j Hj) as (k & Z' & Lk & _). destruct Z as (u & U1 & U2), Z' as (v & V1 & V2). cbn [c_types set_arena] in U1.
        assert (k = l) as -> by congruence. exact Lk. }
      assert (Hmon : forall j, (j < List.length defs)%nat -> mb (0 + j)%nat <= mb (S (0 + j))).
      { intros j Hj. apply bound_step; [exact Cm|]. rewrite Hnm, <- Ld. exact Hj. }
      destruct (concat_bound mb defs 0 Hlen Hmon) as [Q1 Q2]. pose proof (concat_nth mb defs 0 Hlen Hmon) as Q4.
      { cbn [Nat.add] in Q1, Q2, Q4, Hlen. rewrite Ld in Q1.
        pose proof (bound_first _ _ Cm : mb 0 = 1) as B0. pose proof (bound_last (map td_method_list tds) (len (tb_method_def (m_tables md)))) as Bn.
        rewrite Hnm in Bn. fold mb in Bn.
        pose proof (bound_last (map td_field_list tds) (len (tb_field (m_tables md)))) as Bf. rewrite Hnf in Bf. fold fb in Bf.
        split.
        + split; [exact C1|]. intros j Hj. rewrite Hx. exact (D3 j Hj).
        + rewrite C2, Hx. split; [lia|]. exact Fd.
        + rewrite C3, Hx. split; [lia|]. intros q y X. destruct (Q2 _ _ X) as (j & l & q' & X1 & X2 & X3).
          destruct (Dd _ _ X1) as (t & Y & Z). pose proof (nth_lt _ _ _ X1) as Hj. rewrite Ld in Hj.
          assert (t = (m + j)%nat) as ->.
          { rewrite (nth_error_nth' _ 0%nat) in Y by (rewrite seq_length; exact Hj). rewrite seq_nth in Y by exact Hj. congruence. }
          destruct (Hm j Hj) as (k & Z' & Lk & Dk). destruct Z as (u & U1 & U2), Z' as (v & V1 & V2). cbn [c_types set_arena] in U1.
          assert (k = l) as -> by congruence. destruct (Dk _ _ X2) as (row & G1 & G2). exists j, row. split; [exact Hj|].
          pose proof (nth_lt _ _ _ X2) as Lq. unfold len in Lk.
          replace (N.of_nat q + 1) with (mb j + N.of_nat q') by lia. split; [lia|]. split; [exact G1|exact G2].
        + rewrite C2, C3, Hx. intros j Hj. destruct (S3 j Hj) as (row & ti & G1 & G2 & G3 & G4 & G5). exists row, ti.
          split; [exact G1|]. split; [exact G2|]. split; [exact G3|]. split; [exact G4|]. split; [exact G5|].
          destruct (nth_some defs j ltac:(rewrite Ld; exact Hj)) as [l X]. destruct (Dd _ _ X) as (t & Y & Z).
          assert (t = (m + j)%nat) as ->.
          { rewrite (nth_error_nth' _ 0%nat) in Y by (rewrite seq_length; exact Hj). rewrite seq_nth in Y by exact Hj. congruence. }
          destruct Z as (u & U1 & U2). cbn [c_types set_arena] in U1. assert (u = ti) as -> by congruence. rewrite U2.
          split; [now apply Hlen|]. intros q y V. destruct (Q4 j l q y X V) as [_ V']. now rewrite B0 in V'.
        + rewrite Hx. exact Lt3. } }
    assert (Es' : settled bi = st) by exact Es.
    apply bind_inv_ok in E as ([] & s7 & E7 & E). apply bind_inv_ok in E as (s8 & s9 & E8 & E). injection E8 as <- <-. injection E as <-.
    destruct (m_entry_point md) as [ep|].
    - apply bind_inv_ok in E7 as (o & s8 & E7 & E). assert (s8 = s6) as ->.
      { refine (pures _ _ _ _ _ E7). apply pure_resolve_method. }
      destruct o as [x|]; [|discriminate]. unfold bind, ok_or, ret in E. injection E as <-.
      exists (with_entry x bi). cbn [c_arena set_assemblies set_arena]. rewrite nth_update, Nat.eqb_refl, E6.
      split; [reflexivity|]. split; [apply Fi; try reflexivity; try exact T6; cbn; exact Ef|]. split; [cbn; rewrite <- Es'; reflexivity|].
      exists x. split; [reflexivity|]. unfold resolve_method, the_assembly, bind in *. cbn [c_arena set_assemblies set_arena].
      rewrite nth_update, Nat.eqb_refl, E6. rewrite E6 in E7. cbn [option_map a_method_defs a_method_refs with_entry].
      cbv beta iota in E7 |- *. unfold get_row, ret, panic in *.
      destruct (token_table (token_new ep TMethodDef) =? table_id TMethodDef);
        [|destruct (token_table (token_new ep TMethodDef) =? table_id TMemberRef)];
        try (destruct (u_sub p 64 (token_index (token_new ep TMethodDef)) 1); [|discriminate]); try discriminate;
        injection E7 as <-; reflexivity.
    - injection E7 as <-. exists bi. cbn [c_arena set_assemblies]. split; [exact E6|].
      split; [apply Fi; try reflexivity; try exact T6; exact Ef|]. split; [rewrite <- Es'; reflexivity|].
      rewrite <- Es' in Hst. exact Hst.
  Qed.
End Run.

(** ** The whole load *)

Lemma new_assembly_ready p s1 n us refs trefs : consistent p s1 ->
  Forall (v_method (List.length (c_types s1))) refs -> Forall (v_ref s1) trefs ->
  let ai := mkAssembly n [] None us [] refs [] trefs in
  let s2 := set_arena s1 (c_arena s1 ++ [Some ai]) in
  consistent p s2 /\ nth_error (c_arena s2) (List.length (c_arena s1)) = Some (Some ai) /\
  loading (List.length (c_types s1)) (List.length (c_arena s1)) s2.
Proof.
  intros W1 Vm Vt ai s2. set (a0 := List.length (c_arena s1)).
  assert (W2 : consistent p s2).
  { pose proof W1 as W1'. destruct W1' as []. subst s2. split; cbn [c_types c_next_id c_type_map c_arena c_assemblies c_primitives set_arena]; auto.
    - rewrite length_snoc. eapply Forall_impl; [|exact types_ok]. intros t. apply v_type_mono; lia.
    - intros b bi Hb. destruct (Nat.lt_ge_cases b a0) as [Hlt|Hge].
      + rewrite nth_error_app1 in Hb by exact Hlt. eauto.
      + rewrite nth_error_app2 in Hb by exact Hge. destruct (b - List.length (c_arena s1))%nat as [|k]; cbn in Hb; [|destruct k; discriminate].
        injection Hb as <-. repeat split; auto; constructor.
    - eapply Forall_impl; [|exact loaded_ok]. intros b [bi Hb]. exists bi. cbn [c_arena set_arena].
      rewrite nth_error_app1; [exact Hb|]. exact (nth_lt _ _ _ Hb). }
  assert (N2 : nth_error (c_arena s2) a0 = Some (Some ai)).
  { subst s2 a0. cbn [c_arena set_arena]. now rewrite nth_error_app2, Nat.sub_diag by lia. }
  assert (L2 : loading (List.length (c_types s1)) a0 s2).
  { split; [subst s2; cbn; lia|]. subst s2 a0. cbn [c_arena set_arena]. rewrite length_snoc. lia. }
  auto.
Qed.

Lemma loaded_is s n : loaded_as s n -> loaded (c_arena s) (c_assemblies s) n = true.
Proof.
  intros (a & ai & I & Ea & N). induction (c_assemblies s) as [|b l IH]; [destruct I|]. cbn [loaded].
  destruct I as [->|I]; [rewrite Ea, (proj2 (bytes_eqb_spec _ _) N); reflexivity|].
  rewrite (IH I). destruct (nth_error (c_arena s) b) as [[bi|]|]; [apply orb_true_r|reflexivity|reflexivity].
Qed.
(** Nothing is loaded for references to what is loaded. *)
Lemma references_run p fs fuel md s s' : references_loaded s md ->
  iter_m (fun r =>
        rn <- ok_or (string_at md (ar_name r)) "invalid assembly references" ;;
        s <- get_state ;;
        if loaded (c_arena s) (c_assemblies s) rn then ret tt
        else
          path <- ok_or (resolve_assembly_name fs (c_paths s) rn) "Could not locate assembly" ;;
          match fs (fst path) (snd path) with
          | File d => load_data fuel p fs d ;;; ret tt
          | _ => fail "cannot read file"
          end) (tb_assembly_ref (m_tables md)) s = Ok tt s' -> s' = s.
Proof.
  unfold references_loaded. induction (tb_assembly_ref (m_tables md)) as [|r l IH]; intros RL E; cbn [iter_m] in E; [now injection E|].
  apply bind_inv_ok in E as ([] & s1 & E1 & E).
  assert (s1 = s) as ->.
  { apply bind_inv_ok in E1 as (n & s2 & E2 & E1). unfold ok_or in E2. destruct (string_at md (ar_name r)) as [x|] eqn:Ex; [|discriminate].
    injection E2 as <- <-. apply bind_inv_ok in E1 as (s3 & s4 & E3 & E1). injection E3 as <- <-.
    rewrite (loaded_is s x) in E1; [now injection E1|]. apply (RL r x (or_introl eq_refl)). now apply string_at_inv. }
  apply IH; [|exact E]. intros q n I. apply RL. now right.
Qed.

Lemma load_data_run p fs fuel data s a s' md : consistent p s -> read_metadata p data tt = Ok md tt -> addressable md -> well_listed md ->
  load_data fuel p fs data s = Ok a s' ->
  exists s1 ai m, consistent p s1 /\ evolves s s1 /\ consistent p s' /\ evolves s1 s' /\
    nth_error (c_arena s') a = Some (Some ai) /\ filled md a m s' ai /\
    load_method_refs p md (tb_member_ref (m_tables md)) s1 = Ok (a_method_refs ai) s1 /\
    load_type_refs p md s1 = Ok (a_type_refs ai) s1 /\
    a_user_strings ai = m_user_strings md /\
    (exists row, row_of (tb_assembly (m_tables md)) 1 row /\ string_at md (as_name row) = Some (a_name ai)) /\
    match m_entry_point md with
    | None => a_entry ai = None
    | Some ep => exists x, a_entry ai = Some x /\ resolve_method p a (token_new ep TMethodDef) s' = Ok (Some x) s'
    end /\ (references_loaded s md -> s1 = s).
Proof.
  intros W Em Hmd Hl E. destruct fuel as [|fuel]; [discriminate|]. cbn [load_data] in E.
  assert (Htr : len (tb_type_ref (m_tables md)) < 2 ^ 64).
  { pose proof (type_refs_counted _ _ _ Em). assert (2 ^ 32 < 2 ^ 64) by reflexivity. lia. }
  apply bind_inv_ok in E as (md' & s0 & E0 & E). unfold lift in E0. rewrite Em in E0. injection E0 as <- <-.
  apply bind_inv_ok in E as (row & s0 & E1 & E). pose proof (pures _ _ _ _ (pure_row_at p _ _) E1) as ->.
  apply bind_inv_ok in E as (n & s0 & E2 & E). pose proof (pures _ _ _ _ (pure_unwrap _) E2) as ->.
  apply bind_inv_ok in E as ([] & s1 & E3 & E).
  match type of E3 with iter_m ?f ?l _ = _ => assert (P : pres p evolves s (iter_m f l) (fun _ _ => True)) end.
  { apply pres_iter_m with (I := fun _ => True); try apply evolves_refl; try apply evolves_trans; auto. intros r x _.
    eapply pres_bind with (Q := fun _ s' => s' = x); [apply evolves_trans|apply pres_ok_or; [apply evolves_refl|auto]|]. intros rn x' _ _ ->.
    eapply pres_bind with (Q := fun y s' => s' = x /\ y = x); [apply evolves_trans|intro; cbn; auto using evolves_refl|].
    intros y x' _ _ [-> ->]. destruct (loaded _ _ _); [apply pres_ret; [apply evolves_refl|exact I]|].
    eapply pres_bind with (Q := fun _ s' => s' = x); [apply evolves_trans|apply pres_ok_or; [apply evolves_refl|auto]|]. intros path x' _ _ ->.
    destruct (fs _ _); try (apply pres_fail; apply evolves_refl).
    eapply pres_bind; [apply evolves_trans|apply load_data_pres|]. intros. apply pres_ret; [apply evolves_refl|exact I]. }
  destruct (pres_run_ok _ _ _ _ _ _ _ P W E3) as (W1 & V1 & _). clear P.
  apply bind_inv_ok in E as (refs & s2 & E4 & E).
  destruct (pres_run_ok _ _ _ _ _ _ _ (load_method_refs_pres p md _ s1) W1 E4) as (_ & _ & -> & Vm).
  apply bind_inv_ok in E as (trefs & s2 & E5 & E).
  destruct (pres_run_ok _ _ _ _ _ _ _ (load_type_refs_pres p md s1) W1 E5) as (_ & _ & -> & Vt).
  apply bind_inv_ok in E as (a0 & s2 & E6 & E). unfold new_assembly in E6. injection E6 as <- <-.
  set (ai := mkAssembly _ _ _ _ _ _ _ _) in E. set (s2 := set_arena s1 (c_arena s1 ++ [Some ai])) in E. set (a0 := List.length (c_arena s1)) in E.
  destruct (new_assembly_ready p s1 n (m_user_strings md) _ _ W1 Vm Vt) as (W2 & N2 & L2). fold ai s2 a0 in W2, N2, L2.
  pose proof (load_contents_ends p md (List.length (c_types s1)) a0 fuel s2 L2 (ex_intro _ ai N2) W2) as H.
  unfold drop_on_error in E. destruct (load_contents fuel p md a0 s2) as [[] s3|e s3|w|w|] eqn:E7; try discriminate. injection E as <- ->.
  destruct H as (W3 & s4 & R4 & E8).
  destruct (within_evolves s1 s4 ai R4 [a0] (fun x => x)) as [_ V]. assert (V' : evolves s1 s') by (rewrite E8; exact V).
  destruct (load_contents_run p md Hmd (List.length (c_types s1)) a0 (settled ai) Hl Htr fuel s2 s' W2 L2) as (bi & B1 & B2 & B3 & B4); auto.
  { exists ai. auto. }
  cbn in B3. injection B3 as B31 B32 B33 B34.
  exists s1, bi, (List.length (c_types s2)). split; [exact W1|]. split; [exact V1|]. split; [exact W3|]. split; [exact V'|].
  split; [exact B1|]. split; [exact B2|]. split; [now rewrite B33|]. split; [now rewrite B34|]. split; [exact B32|]. split; [|split; [exact B4|intro RL; exact (references_run _ _ _ _ _ _ RL E3)]].
  exists row. rewrite B31. unfold row_at, lift, table_index in E1. cbn [handle_of_position] in E1.
  change (u_sub p 64 (0 + 1) 1) with (Some 0) in E1. cbv beta iota in E1. change (N.to_nat 0) with 0%nat in E1.
  destruct (nth_error (tb_assembly (m_tables md)) 0) as [r|] eqn:Er; [|discriminate]. injection E1 as ->.
  split; [split; [lia|exact Er]|]. unfold unwrap in E2. destruct (string_at md (as_name row)); [|discriminate]. injection E2 as ->. reflexivity.
Qed.

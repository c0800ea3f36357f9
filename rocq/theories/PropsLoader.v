(** Properties C10, C34, C35, C38, C60, C65, C66 and C68: what a successful or failed load leaves in the
    runtime, and what tokens and names resolve to afterwards. *)
From Coq Require Import NArith String List Bool Lia Arith.
From Coq.Strings Require Import Byte.
From Verif Require Import Base BaseFacts Pe Attributes Tables Blob Metadata Runtime Loader SpecBytes SpecPe SpecBlob SpecMetadata SpecRuntime RuntimeInv
  SpecHistory HistoryProofs InterpInv SpecBody BodyProofs TypeFacts LayoutFacts DemoImages DemoStates ZooImages ZooStates
  SpecTypes SpecLoader LoaderFacts LoaderRun MemberFacts PropsBlob DemoFacts.
Import ListNotations.
Open Scope N_scope.

(** ** Tokens *)

Lemma small_token t k : t < 2 ^ 8 -> k < 2 ^ 24 -> token_index (t * 2 ^ 24 + k) = k /\ token_table (t * 2 ^ 24 + k) = t.
Proof. intros. now apply token_parts. Qed.
Lemma get_row_nth {A} p (l : list A) tok k s : token_index tok = k -> 1 <= k ->
  get_row p l tok s = Ok (nth_error l (N.to_nat (k - 1))) s.
Proof. intros E K. unfold get_row. rewrite E, u_sub_small by exact K. reflexivity. Qed.

Section Resolve.
  Variables (p : profile) (a : aref) (s : vm) (ai : assembly_info) (k : N).
  Hypothesis Ha : nth_error (c_arena s) a = Some (Some ai).
  Hypothesis Hk : 1 <= k < 2 ^ 24.
  Lemma resolve_field_at : resolve_field p a (0x04000000 + k) s = Ok (nth_error (a_fields ai) (N.to_nat (k - 1))) s.
  Proof.
    destruct (small_token 4 k) as [I T]; [reflexivity|apply Hk|]. change (4 * 2 ^ 24) with 0x04000000 in *.
    unfold resolve_field, the_assembly, bind. rewrite Ha, T. change (4 =? table_id TField) with true. cbv iota. apply get_row_nth; [exact I|apply Hk].
  Qed.
  Lemma resolve_method_def_at : resolve_method p a (0x06000000 + k) s = Ok (nth_error (a_method_defs ai) (N.to_nat (k - 1))) s.
  Proof.
    destruct (small_token 6 k) as [I T]; [reflexivity|apply Hk|]. change (6 * 2 ^ 24) with 0x06000000 in *.
    unfold resolve_method, the_assembly, bind. rewrite Ha, T. change (6 =? table_id TMethodDef) with true. cbv iota. apply get_row_nth; [exact I|apply Hk].
  Qed.
  Lemma resolve_member_ref_at : resolve_method p a (0x0a000000 + k) s = Ok (nth_error (a_method_refs ai) (N.to_nat (k - 1))) s.
  Proof.
    destruct (small_token 10 k) as [I T]; [reflexivity|apply Hk|]. change (10 * 2 ^ 24) with 0x0a000000 in *.
    unfold resolve_method, the_assembly, bind. rewrite Ha, T. change (10 =? table_id TMethodDef) with false.
    change (10 =? table_id TMemberRef) with true. cbv iota. apply get_row_nth; [exact I|apply Hk].
  Qed.
  Lemma resolve_type_def_at : resolve_type p a (0x02000000 + k) s = Ok (nth_error (a_types ai) (N.to_nat (k - 1))) s.
  Proof.
    destruct (small_token 2 k) as [I T]; [reflexivity|apply Hk|]. change (2 * 2 ^ 24) with 0x02000000 in *.
    unfold resolve_type, the_assembly, bind. rewrite Ha, T. change (2 =? table_id TTypeDef) with true. cbv iota. apply get_row_nth; [exact I|apply Hk].
  Qed.
  Lemma resolve_type_ref_at : resolve_type p a (0x01000000 + k) s = Ok (nth_error (a_type_refs ai) (N.to_nat (k - 1))) s.
  Proof.
    destruct (small_token 1 k) as [I T]; [reflexivity|apply Hk|]. change (1 * 2 ^ 24) with 0x01000000 in *.
    unfold resolve_type, the_assembly, bind. rewrite Ha, T. change (1 =? table_id TTypeDef) with false.
    change (1 =? table_id TTypeRef) with true. cbv iota. apply get_row_nth; [exact I|apply Hk].
  Qed.
End Resolve.

Lemma Forall2_nth_error_l {A B} (R : A -> B -> Prop) : forall l l' i x, Forall2 R l l' -> nth_error l i = Some x ->
  exists y, nth_error l' i = Some y /\ R x y.
Proof.
  intros l l' i x F. revert i x. induction F as [|a b l l' H F IH]; intros [|i] x E; cbn in *; try discriminate; eauto.
  injection E as <-. eauto.
Qed.
Lemma filter_all {A} (f : A -> bool) : forall l, (forall x, In x l -> f x = true) -> filter f l = l.
Proof.
  induction l as [|x l IH]; intros H; [reflexivity|]. cbn [filter]. rewrite (H x (or_introl eq_refl)).
  f_equal. apply IH. intros y I. apply H. now right.
Qed.
Lemma later_assembly p fs s s' a ai : later p fs s s' -> consistent p s -> nth_error (c_arena s) a = Some (Some ai) ->
  nth_error (c_arena s') a = Some (Some ai).
Proof.
  intros L W E. destruct (later_ok _ _ _ _ L W) as [_ G]. destruct (SpecRuntime.gr_arena _ _ G) as [l ->].
  rewrite nth_error_app1; [exact E|]. exact (nth_lt _ _ _ E).
Qed.
Lemma later_type p fs s s' t ti : later p fs s s' -> consistent p s -> nth_error (c_types s) t = Some ti ->
  nth_error (c_types s') t = Some ti.
Proof.
  intros L W E. destruct (later_ok _ _ _ _ L W) as [_ G]. destruct (SpecRuntime.gr_types _ _ G) as [l ->].
  rewrite nth_error_app1; [exact E|]. exact (nth_lt _ _ _ E).
Qed.
Lemma later_named p fs s s' : later p fs s s' -> consistent p s -> named_le (c_types s) (c_types s').
Proof. intros L W t n (ti & E & N). exists ti. split; [|exact N]. eapply later_type; eauto. Qed.
Lemma row_small {A} (rows : list A) k r n : row_of rows k r -> len rows < n -> 1 <= k < n.
Proof. intros [K E] L. apply nth_lt in E. unfold len in L. lia. Qed.
Lemma row_pos {A} (rows : list A) k r : row_of rows k r -> (N.to_nat (k - 1) < List.length rows)%nat.
Proof. intros [_ E]. exact (nth_lt _ _ _ E). Qed.
Lemma row_unique {A} (rows : list A) k r r' : row_of rows k r -> row_of rows k r' -> r = r'.
Proof. intros [_ E] [_ E']. congruence. Qed.

(** The token of the type of position [j] resolves to it. *)
Lemma type_token p md m s s' a ai j : filled md a m s ai -> len (tb_type_def (m_tables md)) < 2 ^ 24 ->
  nth_error (c_arena s') a = Some (Some ai) -> (j < List.length (tb_type_def (m_tables md)))%nat ->
  resolve_type p a (0x02000000 + (N.of_nat j + 1)) s' = Ok (Some (m + j)%nat) s'.
Proof.
  intros F L Ea Hj. destruct (fl_types _ _ _ _ _ F) as [T _]. rewrite (resolve_type_def_at p a s' ai _ Ea) by (unfold len in L; lia).
  rewrite T. replace (N.to_nat _) with j by lia. rewrite (nth_error_nth' _ 0%nat) by now rewrite seq_length.
  now rewrite seq_nth.
Qed.

(** ** C65 *)

(** The token of a type definition resolves, right after the load and for ever, to the type that
    the row describes. *)
Theorem C65_type_tokens p fs paths s fuel data md a s1 s2 k row :
  history p fs paths s -> read_metadata p data tt = Ok md tt -> addressable md -> well_listed md ->
  load_data fuel p fs data s = Ok a s1 -> later p fs s1 s2 ->
  row_of (tb_type_def (m_tables md)) k row ->
  exists t ti, resolve_type p a (0x02000000 + k) s2 = Ok (Some t) s2 /\
    nth_error (c_types s2) t = Some ti /\ type_as md a row ti.
Proof.
  intros H Em Hmd Hl E La R. destruct (history_ok _ _ _ _ H) as (W & _).
  destruct (load_data_run _ _ _ _ _ _ _ _ W Em Hmd Hl E) as (s0 & ai & m & W0 & V0 & W1 & V1 & Ea & F & _).
  pose proof (later_assembly _ _ _ _ _ _ La W1 Ea) as Ea2. pose proof (row_pos _ _ _ R) as Hj.
  destruct (fl_types _ _ _ _ _ F) as [_ D]. destruct (D _ Hj) as (row' & ti & Er & Et & As).
  exists (m + N.to_nat (k - 1))%nat, ti. destruct R as [K R]. split; [|split].
  - replace k with (N.of_nat (N.to_nat (k - 1)) + 1) at 1 by lia. exact (type_token p md m s1 s2 a ai _ F (proj1 Hl) Ea2 Hj).
  - eapply later_type; eauto.
  - assert (row' = row) as -> by congruence. exact As.
Qed.

(** The token of a type reference resolves to the type that had the name in the row when the
    assembly was loaded: of several of that name, the one registered last. *)
Theorem C65_type_ref_tokens p fs paths s fuel data md a s1 s2 k row :
  history p fs paths s -> read_metadata p data tt = Ok md tt -> addressable md -> well_listed md ->
  load_data fuel p fs data s = Ok a s1 -> later p fs s1 s2 ->
  row_of (tb_type_ref (m_tables md)) k row -> k < 2 ^ 24 ->
  exists t n ns, resolve_type p a (0x01000000 + k) s2 = Ok (Some t) s2 /\
    heap_text md (tr_name row) n /\ heap_text md (tr_namespace row) ns /\ is_named (c_types s2) t (qualified n ns) /\
    (references_loaded s md -> latest (c_types s) (qualified n ns) t).
Proof.
  intros H Em Hmd Hl E La R K2. destruct (history_ok _ _ _ _ H) as (W & _).
  destruct (load_data_run _ _ _ _ _ _ _ _ W Em Hmd Hl E) as (s0 & ai & m & W0 & V0 & W1 & V1 & Ea & F & _ & Tr & _ & _ & _ & RL).
  pose proof (later_assembly _ _ _ _ _ _ La W1 Ea) as Ea2.
  destruct (type_refs_run _ _ _ _ _ W0 Tr) as [_ F2]. destruct R as [K R].
  destruct (Forall2_nth_error_l _ _ _ _ _ F2 R) as (t & Et & n & ns & Hn & Hns & Lt). pose proof Lt as [(ti & X & Y) _].
  exists t, n, ns. split; [|split; [exact Hn|split; [exact Hns|split]]].
  - rewrite (resolve_type_ref_at p a s2 ai k Ea2 (conj K K2)). f_equal. exact Et.
  - apply (later_named _ _ _ _ La W1), (named_le_evolves _ _ V1). exists ti. auto.
  - intro R'. rewrite <- (RL R'). exact Lt.
Qed.

Lemma heap_text_one md h t t' : heap_text md h t -> heap_text md h t' -> t = t'.
Proof. intros A B. apply string_at_text in A. apply string_at_text in B. congruence. Qed.

Lemma filled_names md a m s ai : filled md a m s ai -> forall j y, (j < List.length (tb_type_def (m_tables md)))%nat ->
  is_named (c_types s) (m + j)%nat y <-> row_name md InTypeDef (N.of_nat j + 1) y.
Proof.
  intros F j y Hj. destruct (fl_types _ _ _ _ _ F) as [_ D]. destruct (D _ Hj) as (row & ti & Er & Et & [_ T2 T3 T4 _]). split.
  - intros (u & Eu & <-). assert (u = ti) as -> by congruence. rewrite T4. eapply in_type_def; eauto; [lia|].
    now replace (N.to_nat (N.of_nat j + 1 - 1)) with j by lia.
  - intro X. exists ti. split; [exact Et|]. inversion X as [? d x z K Ed Hx Hz|]; subst.
    replace (N.to_nat (N.of_nat j + 1 - 1)) with j in Ed by lia. assert (d = row) as -> by congruence.
    rewrite T4, (heap_text_one _ _ _ _ T2 Hx), (heap_text_one _ _ _ _ T3 Hz). reflexivity.
Qed.

(** After the load the full name of a type definition stands for the type of its row, unless a later
    row has the same full name. *)
Theorem C65_type_names p fs paths s fuel data md a s1 k n :
  history p fs paths s -> read_metadata p data tt = Ok md tt -> addressable md -> well_listed md ->
  load_data fuel p fs data s = Ok a s1 ->
  row_name md InTypeDef k n -> (forall j, k < j -> ~ row_name md InTypeDef j n) ->
  exists t, get_type n s1 = Ok (Some t) s1 /\ resolve_type p a (0x02000000 + k) s1 = Ok (Some t) s1 /\ latest (c_types s1) n t.
Proof.
  intros H Em Hmd Hl E R Nl. destruct (history_ok _ _ _ _ H) as (W & _).
  destruct (load_data_run _ _ _ _ _ _ _ _ W Em Hmd Hl E) as (s0 & ai & m & W0 & V0 & W1 & V1 & Ea & F & _).
  pose proof (filled_names _ _ _ _ _ F) as Name.
  assert (Hk : 1 <= k /\ (N.to_nat (k - 1) < List.length (tb_type_def (m_tables md)))%nat).
  { inversion R as [? d x z K Ed Hx Hz|]; subst. split; [exact K|exact (nth_lt _ _ _ Ed)]. }
  destruct Hk as [K Hk]. set (j := N.to_nat (k - 1)) in *. assert (Ek : k = N.of_nat j + 1) by lia.
  assert (Lt : latest (c_types s1) n (m + j)%nat).
  { apply (fl_latest _ _ _ _ _ F j n Hk); [apply Name; [exact Hk|now rewrite <- Ek]|].
    intros i Hi X. apply Name in X; [|lia]. apply (Nl (N.of_nat i + 1)); [lia|exact X]. }
  exists (m + j)%nat. split; [|split; [|exact Lt]].
  - pose proof (map_ok _ _ W1 n) as Mo. unfold get_type. destruct (map_get bytes_eqb n (c_type_map s1)) as [u|].
    + now rewrite (latest_one _ _ _ _ Lt Mo).
    + exfalso. destruct Lt as [(ti & Et & Nt) _]. apply (Mo ti); [eapply nth_error_In; exact Et|exact Nt].
  - rewrite Ek. exact (type_token p md m s1 s1 a ai j F (proj1 Hl) Ea Hk).
Qed.

(** ** C68 *)

(** What a loaded type extends, what kind of type it is and which interfaces it has are as the
    tables say.  Names mean what they meant at the end of the load. *)
Theorem C68_type_shape p fs paths s fuel data md a s1 s2 k row :
  history p fs paths s -> read_metadata p data tt = Ok md tt -> addressable md -> well_listed md ->
  load_data fuel p fs data s = Ok a s1 -> later p fs s1 s2 ->
  row_of (tb_type_def (m_tables md)) k row ->
  exists t ti, resolve_type p a (0x02000000 + k) s2 = Ok (Some t) s2 /\
    nth_error (c_types s2) t = Some ti /\ type_shape md (c_types s1) row t ti.
Proof.
  intros H Em Hmd Hl E La R. destruct (history_ok _ _ _ _ H) as (W & _).
  destruct (load_data_run _ _ _ _ _ _ _ _ W Em Hmd Hl E) as (s0 & ai & m & W0 & V0 & W1 & V1 & Ea & F & _).
  pose proof (later_assembly _ _ _ _ _ _ La W1 Ea) as Ea2. pose proof (row_pos _ _ _ R) as Hj.
  destruct (fl_shape _ _ _ _ _ F _ Hj) as (row' & ti & Er & Et & Sh & _).
  exists (m + N.to_nat (k - 1))%nat, ti. destruct R as [K R]. split; [|split].
  - replace k with (N.of_nat (N.to_nat (k - 1)) + 1) at 1 by lia. exact (type_token p md m s1 s2 a ai _ F (proj1 Hl) Ea2 Hj).
  - eapply later_type; eauto.
  - assert (row' = row) as -> by congruence. exact Sh.
Qed.

(** A run of rows, in terms of the bounds. *)
Lemma run_within starts total j x q : consecutive starts total -> nth_error starts j = Some x -> x + N.of_nat q <= total ->
  belongs starts (x + N.of_nat q) (N.of_nat j + 1) -> x + N.of_nat q < bound starts total (S j).
Proof.
  intros C Ej Lt (y & _ & _ & U). pose proof (nth_lt _ _ _ Ej) as Hj.
  destruct (Nat.eq_dec (S j) (List.length starts)) as [Last|N].
  - rewrite Last, bound_last. lia.
  - apply U. split; [lia|]. replace (N.to_nat (N.of_nat j + 1 + 1 - 1)) with (S j) by lia. apply bound_row. lia.
Qed.
Lemma run_inside starts total j x q : consecutive starts total -> nth_error starts j = Some x ->
  N.of_nat q < bound starts total (S j) - bound starts total j -> belongs starts (x + N.of_nat q) (N.of_nat j + 1) /\ bound starts total j = x.
Proof.
  intros C Ej L. pose proof (nth_lt _ _ _ Ej) as Hj. rewrite (bound_row _ total) in Ej by exact Hj. injection Ej as <-.
  split; [|reflexivity]. apply (bound_belongs starts total); [exact Hj|lia].
Qed.

Lemma members_iff {A} starts total j x (l mem : list A) : consecutive starts total -> nth_error starts j = Some x ->
  len l = total -> len mem = bound starts total (S j) - bound starts total j ->
  (forall q f, nth_error mem q = Some f -> nth_error l (N.to_nat (bound starts total j - 1) + q) = Some f) ->
  1 <= x /\ forall q f, nth_error mem q = Some f <->
    belongs starts (x + N.of_nat q) (N.of_nat j + 1) /\ x + N.of_nat q <= total /\ nth_error l (N.to_nat (x + N.of_nat q - 1)) = Some f.
Proof.
  intros C Ej Ll Lm D. pose proof (nth_lt _ _ _ Ej) as Hj.
  pose proof (bound_row _ total _ Hj) as Br. rewrite Ej in Br. injection Br as Br.
  assert (Bx : 1 <= x) by (rewrite Br; apply (bound_le _ _ C); lia). split; [exact Bx|]. intros q f.
  assert (Eq : N.to_nat (x + N.of_nat q - 1) = (N.to_nat (bound starts total j - 1) + q)%nat) by lia. rewrite Eq. split.
  - intro X. pose proof (nth_lt _ _ _ X) as Lq. pose proof (D _ _ X) as Y. pose proof (nth_lt _ _ _ Y) as Ly. unfold len in *.
    destruct (run_inside _ total _ _ q C Ej) as [B1 B2]; [lia|]. split; [exact B1|]. split; [lia|exact Y].
  - intros (B & Lx & X). pose proof (run_within _ _ _ _ q C Ej Lx B) as U.
    destruct (nth_some mem q) as [g Eg]; [unfold len in *; lia|]. pose proof (D _ _ Eg) as Y. congruence.
Qed.

(** Its fields and methods are those of its run of rows, in their order: the members that the tokens
    of these rows resolve to. *)
Theorem C68_type_members p fs paths s fuel data md a s1 s2 k row :
  history p fs paths s -> read_metadata p data tt = Ok md tt -> addressable md -> well_listed md ->
  load_data fuel p fs data s = Ok a s1 -> later p fs s1 s2 ->
  row_of (tb_type_def (m_tables md)) k row ->
  exists t ti, resolve_type p a (0x02000000 + k) s2 = Ok (Some t) s2 /\ nth_error (c_types s2) t = Some ti /\
    (forall q f, nth_error (ti_fields ti) q = Some f <->
       belongs (map td_field_list (tb_type_def (m_tables md))) (td_field_list row + N.of_nat q) k /\
       td_field_list row + N.of_nat q <= len (tb_field (m_tables md)) /\
       resolve_field p a (0x04000000 + (td_field_list row + N.of_nat q)) s2 = Ok (Some f) s2) /\
    (forall q x, nth_error (ti_methods ti) q = Some x <->
       belongs (map td_method_list (tb_type_def (m_tables md))) (td_method_list row + N.of_nat q) k /\
       td_method_list row + N.of_nat q <= len (tb_method_def (m_tables md)) /\
       resolve_method p a (0x06000000 + (td_method_list row + N.of_nat q)) s2 = Ok (Some x) s2).
Proof.
  intros H Em Hmd Hl E La R. destruct (history_ok _ _ _ _ H) as (W & _).
  destruct (load_data_run _ _ _ _ _ _ _ _ W Em Hmd Hl E) as (s0 & ai & m & W0 & V0 & W1 & V1 & Ea & F & _).
  pose proof (later_assembly _ _ _ _ _ _ La W1 Ea) as Ea2. pose proof (row_pos _ _ _ R) as Hj.
  destruct (fl_shape _ _ _ _ _ F _ Hj) as (row' & ti & Er & Et & _ & Lf & Nf & Lm & Nm).
  destruct (fl_fields _ _ _ _ _ F) as [Cf _]. destruct (fl_methods _ _ _ _ _ F) as [Cm _].
  destruct R as [K R]. assert (row' = row) as -> by congruence. clear R.
  set (j := N.to_nat (k - 1)) in *. assert (Ek : k = N.of_nat j + 1) by lia. rewrite Ek.
  destruct Hl as (Ht & Hf & Hm). pose proof (proj2 (proj2 Hf)) as Tf. pose proof (proj2 (proj2 Hm)) as Tm.
  assert (Ef : nth_error (map td_field_list (tb_type_def (m_tables md))) j = Some (td_field_list row)) by (rewrite nth_error_map, Er; reflexivity).
  assert (Eme : nth_error (map td_method_list (tb_type_def (m_tables md))) j = Some (td_method_list row)) by (rewrite nth_error_map, Er; reflexivity).
  exists (m + j)%nat, ti. split; [exact (type_token p md m s1 s2 a ai _ F Ht Ea2 Hj)|]. split; [eapply later_type; eauto|].
  destruct (members_iff _ _ _ _ _ _ Hf Ef Cf Lf Nf) as [Bf If]. destruct (members_iff _ _ _ _ _ _ Hm Eme Cm Lm Nm) as [Bm Im]. split.
  - intros q f. rewrite If. split; intros (B & L & X); (split; [exact B|]); (split; [exact L|]).
    + rewrite (resolve_field_at p a s2 ai _ Ea2) by lia. now rewrite X.
    + rewrite (resolve_field_at p a s2 ai _ Ea2) in X by lia. now injection X.
  - intros q f. rewrite Im. split; intros (B & L & X); (split; [exact B|]); (split; [exact L|]).
    + rewrite (resolve_method_def_at p a s2 ai _ Ea2) by lia. now rewrite X.
    + rewrite (resolve_method_def_at p a s2 ai _ Ea2) in X by lia. now injection X.
Qed.

(** ** C34 *)

(** The token of a field resolves to the field that the row describes, which belongs to the type
    whose list has the row. *)
Theorem C34_field_tokens p fs paths s fuel data md a s1 s2 k row :
  history p fs paths s -> read_metadata p data tt = Ok md tt -> addressable md -> well_listed md ->
  load_data fuel p fs data s = Ok a s1 -> later p fs s1 s2 ->
  row_of (tb_field (m_tables md)) k row ->
  exists f j owner, resolve_field p a (0x04000000 + k) s2 = Ok (Some f) s2 /\
    belongs (map td_field_list (tb_type_def (m_tables md))) k j /\
    resolve_type p a (0x02000000 + j) s2 = Ok (Some owner) s2 /\
    field_as md (c_types s2) row owner f.
Proof.
  intros H Em Hmd Hl E La R. destruct (history_ok _ _ _ _ H) as (W & _).
  destruct (load_data_run _ _ _ _ _ _ _ _ W Em Hmd Hl E) as (s0 & ai & m & W0 & V0 & W1 & V1 & Ea & F & _).
  pose proof (later_assembly _ _ _ _ _ _ La W1 Ea) as Ea2. destruct (fl_fields _ _ _ _ _ F) as [Len D].
  destruct Hl as (Ht & Cf & Cm). pose proof (proj2 (proj2 Cf)) as Lt.
  pose proof (row_pos _ _ _ R) as Hq. destruct (nth_some (a_fields ai) (N.to_nat (k - 1))) as [f Ef]; [unfold len in Len; lia|].
  destruct (D _ _ Ef) as (j & row' & Hj & Bj & R' & As). pose proof R as [K _]. replace (N.of_nat _ + 1) with k in * by lia.
  rewrite (row_unique _ _ _ _ R' R) in As. exists f, (N.of_nat j + 1), (m + j)%nat. split; [|split; [|split]].
  - rewrite (resolve_field_at p a s2 ai k Ea2) by (apply (row_small _ _ _ _ R); lia). now rewrite Ef.
  - exact (bound_belongs _ _ j k ltac:(rewrite map_length; exact Hj) Bj).
  - exact (type_token p md m s1 s2 a ai j F Ht Ea2 Hj).
  - eapply field_as_mono; [|exact As]. exact (later_named _ _ _ _ La W1).
Qed.

(** The same for methods. *)
Theorem C34_method_tokens p fs paths s fuel data md a s1 s2 k row :
  history p fs paths s -> read_metadata p data tt = Ok md tt -> addressable md -> well_listed md ->
  load_data fuel p fs data s = Ok a s1 -> later p fs s1 s2 ->
  row_of (tb_method_def (m_tables md)) k row ->
  exists x j owner, resolve_method p a (0x06000000 + k) s2 = Ok (Some x) s2 /\
    belongs (map td_method_list (tb_type_def (m_tables md))) k j /\
    resolve_type p a (0x02000000 + j) s2 = Ok (Some owner) s2 /\
    method_as md (c_types s2) row owner x.
Proof.
  intros H Em Hmd Hl E La R. destruct (history_ok _ _ _ _ H) as (W & _).
  destruct (load_data_run _ _ _ _ _ _ _ _ W Em Hmd Hl E) as (s0 & ai & m & W0 & V0 & W1 & V1 & Ea & F & _).
  pose proof (later_assembly _ _ _ _ _ _ La W1 Ea) as Ea2. destruct (fl_methods _ _ _ _ _ F) as [Len D].
  destruct Hl as (Ht & Cf & Cm). pose proof (proj2 (proj2 Cm)) as Lt.
  pose proof (row_pos _ _ _ R) as Hq. destruct (nth_some (a_method_defs ai) (N.to_nat (k - 1))) as [f Ef]; [unfold len in Len; lia|].
  destruct (D _ _ Ef) as (j & row' & Hj & Bj & R' & As). pose proof R as [K _]. replace (N.of_nat _ + 1) with k in * by lia.
  rewrite (row_unique _ _ _ _ R' R) in As. exists f, (N.of_nat j + 1), (m + j)%nat. split; [|split; [|split]].
  - rewrite (resolve_method_def_at p a s2 ai k Ea2) by (apply (row_small _ _ _ _ R); lia). now rewrite Ef.
  - exact (bound_belongs _ _ j k ltac:(rewrite map_length; exact Hj) Bj).
  - exact (type_token p md m s1 s2 a ai j F Ht Ea2 Hj).
  - eapply method_as_mono; [|exact As]. exact (later_named _ _ _ _ La W1).
Qed.

(** Tokens beyond the tables resolve to nothing. *)
Theorem C34_no_such_row p fs paths s fuel data md a s1 s2 k :
  history p fs paths s -> read_metadata p data tt = Ok md tt -> addressable md -> well_listed md ->
  load_data fuel p fs data s = Ok a s1 -> later p fs s1 s2 -> k < 2 ^ 24 ->
  (len (tb_field (m_tables md)) < k -> resolve_field p a (0x04000000 + k) s2 = Ok None s2) /\
  (len (tb_method_def (m_tables md)) < k -> resolve_method p a (0x06000000 + k) s2 = Ok None s2) /\
  (len (tb_type_def (m_tables md)) < k -> resolve_type p a (0x02000000 + k) s2 = Ok None s2).
Proof.
  intros H Em Hmd Hl E La K2. destruct (history_ok _ _ _ _ H) as (W & _).
  destruct (load_data_run _ _ _ _ _ _ _ _ W Em Hmd Hl E) as (s0 & ai & m & W0 & V0 & W1 & V1 & Ea & F & _).
  pose proof (later_assembly _ _ _ _ _ _ La W1 Ea) as Ea2.
  destruct (fl_fields _ _ _ _ _ F) as [L1 _]. destruct (fl_methods _ _ _ _ _ F) as [L2 _]. destruct (fl_types _ _ _ _ _ F) as [L3 _].
  split; [|split]; intro K.
  - rewrite (resolve_field_at p a s2 ai k Ea2) by lia. f_equal. apply nth_error_None. unfold len in *. lia.
  - rewrite (resolve_method_def_at p a s2 ai k Ea2) by lia. f_equal. apply nth_error_None. unfold len in *. lia.
  - rewrite (resolve_type_def_at p a s2 ai k Ea2) by lia. f_equal. apply nth_error_None. rewrite L3, seq_length. unfold len in *. lia.
Qed.

(** ** C66 *)

(** Looking up a field or a method of a type by name gives the last one of that name among those
    that the type itself declares, in every state that a runtime can reach. *)
Theorem C66_field_by_name p fs paths s t ti n :
  history p fs paths s -> nth_error (c_types s) t = Some ti ->
  exists o, get_field t n s = Ok o s /\ last_called f_name n (ti_fields ti) o /\
    forall f, o = Some f -> f_declaring f = t.
Proof.
  intros H E. pose proof (history_knows _ _ _ _ H _ _ E) as K. exists (map_get bytes_eqb n (ti_field_map ti)).
  split; [|split].
  - unfold get_field, the_type, bind. now rewrite E.
  - apply (kn_field _ _ K).
  - intros f Ef. pose proof (kn_field _ _ K n) as L. rewrite Ef in L. destruct L as (l1 & l2 & El & _).
    apply (kn_fields _ _ K). rewrite El. apply in_elt.
Qed.
Theorem C66_method_by_name p fs paths s t ti n :
  history p fs paths s -> nth_error (c_types s) t = Some ti ->
  exists o, get_method t n s = Ok o s /\ last_called mt_name n (ti_methods ti) o /\
    forall m, o = Some m -> mt_declaring m = t.
Proof.
  intros H E. pose proof (history_knows _ _ _ _ H _ _ E) as K. exists (map_get bytes_eqb n (ti_method_map ti)).
  split; [|split].
  - unfold get_method, the_type, bind. now rewrite E.
  - apply (kn_method _ _ K).
  - intros f Ef. pose proof (kn_method _ _ K n) as L. rewrite Ef in L. destruct L as (l1 & l2 & El & _).
    apply (kn_methods _ _ K). rewrite El. apply in_elt.
Qed.

(** ** C35 *)

(** What the code does for any mix of parents: the rows whose parent is not a type reference are
    skipped, and the tokens count the others.  The method is the last one with the name in the row
    that its type declares, and that type has the name of the parent. *)
Theorem C35_member_ref_tokens_partial p fs paths s fuel data md a s1 s2 k row :
  history p fs paths s -> read_metadata p data tt = Ok md tt -> addressable md -> well_listed md ->
  load_data fuel p fs data s = Ok a s1 -> later p fs s1 s2 ->
  row_of (filter of_type_ref (tb_member_ref (m_tables md))) k row -> k < 2 ^ 24 ->
  exists x fn ti, resolve_method p a (0x0a000000 + k) s2 = Ok (Some x) s2 /\
    heap_text md (mr_name row) (mt_name x) /\ parent_of md row fn /\
    nth_error (c_types s2) (mt_declaring x) = Some ti /\ ti_full_name ti = fn /\
    last_called mt_name (mt_name x) (ti_methods ti) (Some x) /\
    (references_loaded s md -> latest (c_types s) fn (mt_declaring x)).
Proof.
  intros H Em Hmd Hl E La R K2. destruct (history_ok _ _ _ _ H) as (W & _).
  assert (Lr : len (tb_type_ref (m_tables md)) < 2 ^ 64).
  { pose proof (type_refs_counted _ _ _ Em). assert (2 ^ 32 < 2 ^ 64) by reflexivity. lia. }
  destruct (load_data_run _ _ _ _ _ _ _ _ W Em Hmd Hl E) as (s0 & ai & m & W0 & V0 & W1 & V1 & Ea & F & Mr & _ & _ & _ & _ & RL).
  pose proof (later_assembly _ _ _ _ _ _ La W1 Ea) as Ea2.
  destruct (method_refs_run _ _ _ W0 Lr _ _ _ Mr) as [_ F2]. destruct R as [K R].
  destruct (Forall2_nth_error_l _ _ _ _ _ F2 R) as (x & Ex & fn & t & ti & mn & Pf & Lt & Et & Hmn & Em'). pose proof Lt as [(tj & Tj & Nj) _].
  assert (tj = ti) as -> by congruence.
  assert (H1 : history p fs paths s1).
  { destruct H as (g & rt & con & v0 & St & L0). exists g, rt, con, v0. split; [exact St|].
    eapply later_then; [exact L0|]. eapply ev_load; exact E. }
  destruct (ev_types _ _ V1) as [l El].
  assert (Et1 : nth_error (c_types s1) t = Some ti) by (rewrite El, nth_error_app1; [exact Et|exact (nth_lt _ _ _ Et)]).
  destruct (C66_method_by_name p fs paths s1 t ti mn H1 Et1) as (o & G & Lc & D).
  unfold get_method, the_type, bind in G. rewrite Et1 in G. injection G as G. rewrite Em' in G. subst o.
  pose proof Lc as (l1 & l2 & _ & Nx & _).
  exists x, fn, ti. split; [|split; [|split; [|split; [|split; [|split]]]]].
  - rewrite (resolve_member_ref_at p a s2 ai k Ea2 (conj K K2)). now rewrite Ex.
  - rewrite Nx. exact Hmn.
  - exact Pf.
  - rewrite (D _ eq_refl). eapply later_type; eauto.
  - exact Nj.
  - rewrite Nx. exact Lc.
  - intro R'. rewrite <- (RL R'), (D _ eq_refl). exact Lt.
Qed.

(** So where all parents are type references, the tokens are those of the rows. *)
Theorem C35_type_ref_parents_partial p fs paths s fuel data md a s1 s2 k row :
  history p fs paths s -> read_metadata p data tt = Ok md tt -> addressable md -> well_listed md ->
  (forall r, In r (tb_member_ref (m_tables md)) -> ref_table (mr_parent r) = TTypeRef) ->
  load_data fuel p fs data s = Ok a s1 -> later p fs s1 s2 ->
  row_of (tb_member_ref (m_tables md)) k row -> k < 2 ^ 24 ->
  exists x fn ti, resolve_method p a (0x0a000000 + k) s2 = Ok (Some x) s2 /\
    heap_text md (mr_name row) (mt_name x) /\ parent_of md row fn /\
    nth_error (c_types s2) (mt_declaring x) = Some ti /\ ti_full_name ti = fn /\
    last_called mt_name (mt_name x) (ti_methods ti) (Some x) /\
    (references_loaded s md -> latest (c_types s) fn (mt_declaring x)).
Proof.
  intros H Em Hmd Hl All E La R K2. eapply C35_member_ref_tokens_partial; eauto.
  rewrite filter_all; [exact R|]. intros r I. unfold of_type_ref. now rewrite (All r I).
Qed.

(** ** C10 *)

Lemma entry_point_read p data md : read_metadata p data tt = Ok md tt ->
  m_entry_point md = entry_point_of (ch_entry_point (m_cli_header md)).
Proof.
  unfold read_metadata. intro E. repeat (apply bind_inv_ok in E as (? & ? & _ & E)). injection E as <-. reflexivity.
Qed.
Lemma method_token p a k s : k < 2 ^ 24 -> resolve_method p a (token_new k TMethodDef) s = resolve_method p a (0x06000000 + k) s.
Proof.
  intro K. destruct (C09_token_round_trip_partial k TMethodDef K) as [I T].
  destruct (small_token 6 k) as [I' T']; [reflexivity|exact K|]. change (6 * 2 ^ 24) with 0x06000000 in *.
  unfold resolve_method, get_row. rewrite I, T, I', T'. reflexivity.
Qed.

Section Entry.
  Variables (p : profile) (fs : file_system) (paths : list name) (s : vm) (fuel : nat) (data : list byte) (md : metadata).
  Hypothesis H : history p fs paths s.
  Hypothesis Em : read_metadata p data tt = Ok md tt.
  Hypothesis Hmd : addressable md.
  Hypothesis Hl : well_listed md.

  (** An assembly whose header has no entry point has none. *)
  Lemma no_entry a s1 : token_index (ch_entry_point (m_cli_header md)) = 0 ->
    load_data fuel p fs data s = Ok a s1 ->
    exists ai, nth_error (c_arena s1) a = Some (Some ai) /\ a_entry ai = None.
  Proof.
    intros T E. destruct (history_ok _ _ _ _ H) as (W & _).
    destruct (load_data_run _ _ _ _ _ _ _ _ W Em Hmd Hl E) as (s0 & ai & m & _ & _ & _ & _ & Ea & _ & _ & _ & _ & _ & Ep & _).
    rewrite (entry_point_read _ _ _ Em) in Ep. unfold entry_point_of in Ep. rewrite T in Ep. exists ai. split; [exact Ea|exact Ep].
  Qed.
  Lemma some_entry r a s1 : ch_entry_point (m_cli_header md) = 0x06000000 + r -> 1 <= r < 2 ^ 24 ->
    load_data fuel p fs data s = Ok a s1 ->
    exists ai x, nth_error (c_arena s1) a = Some (Some ai) /\ a_entry ai = Some x /\
      resolve_method p a (0x06000000 + (r - 1)) s1 = Ok (Some x) s1.
  Proof.
    intros T R E. destruct (history_ok _ _ _ _ H) as (W & _).
    destruct (load_data_run _ _ _ _ _ _ _ _ W Em Hmd Hl E) as (s0 & ai & m & _ & _ & _ & _ & Ea & _ & _ & _ & _ & _ & Ep & _).
    rewrite (entry_point_read _ _ _ Em) in Ep. unfold entry_point_of in Ep. rewrite T in Ep.
    destruct (small_token 6 r) as [I _]; [reflexivity|apply R|]. change (6 * 2 ^ 24) with 0x06000000 in I. rewrite I in Ep.
    destruct (N.eqb_spec r 0) as [->|_]; [lia|]. destruct Ep as (x & X & Y). rewrite method_token in Y by lia.
    exists ai, x. auto.
  Qed.
End Entry.

(** An assembly whose header has no entry point has none after the load. *)
Theorem C10_no_entry_point p fs paths s fuel data md a s1 :
  history p fs paths s -> read_metadata p data tt = Ok md tt -> addressable md -> well_listed md ->
  token_index (ch_entry_point (m_cli_header md)) = 0 ->
  load_data fuel p fs data s = Ok a s1 ->
  exists ai, nth_error (c_arena s1) a = Some (Some ai) /\ a_entry ai = None.
Proof. intros. eapply no_entry; eauto. Qed.

(** Otherwise the entry point is the method of the row before the one in the header. *)
Theorem C10_entry_point_partial p fs paths s fuel data md a s1 r :
  history p fs paths s -> read_metadata p data tt = Ok md tt -> addressable md -> well_listed md ->
  ch_entry_point (m_cli_header md) = 0x06000000 + r -> 1 <= r < 2 ^ 24 ->
  load_data fuel p fs data s = Ok a s1 ->
  exists ai x row owner, nth_error (c_arena s1) a = Some (Some ai) /\ a_entry ai = Some x /\
    row_of (tb_method_def (m_tables md)) (r - 1) row /\ method_as md (c_types s1) row owner x.
Proof.
  intros H Em Hmd Hl T R E. destruct (some_entry _ _ _ _ _ _ _ H Em Hmd Hl _ _ _ T R E) as (ai & x & Ea & Ex & Er).
  assert (r <> 1) as N1.
  { intros ->. unfold resolve_method, the_assembly, bind in Er. rewrite Ea in Er.
    change (0x06000000 + (1 - 1)) with 0x06000000 in Er. change (token_table 0x06000000) with 6 in Er.
    change (6 =? table_id TMethodDef) with true in Er. cbv iota in Er. unfold get_row in Er.
    change (token_index 0x06000000) with 0 in Er. destruct p; [discriminate Er|].
    destruct (history_ok _ _ _ _ H) as (W & _).
    destruct (load_data_run _ _ _ _ _ _ _ _ W Em Hmd Hl E) as (s0 & ai' & m & _ & _ & _ & _ & Ea' & F & _).
    assert (ai' = ai) as -> by congruence. destruct (fl_methods _ _ _ _ _ F) as [Len _].
    pose proof (proj2 (proj2 (proj2 (proj2 Hl)))) as Lt.
    destruct (u_sub Release 64 0 1) as [big|] eqn:U; [|discriminate Er]. unfold ret in Er. injection Er as Er. apply nth_lt in Er.
    assert (big = 2 ^ 64 - 1) by (injection U as <-; vm_compute; reflexivity).
    assert (N.of_nat (List.length (a_method_defs ai)) < 2 ^ 24) by (unfold len in *; lia).
    assert (2 ^ 24 < 2 ^ 64 - 1) by reflexivity. lia. }
  destruct (N.le_gt_cases (r - 1) (len (tb_method_def (m_tables md)))) as [L|L].
  - destruct (nth_some (tb_method_def (m_tables md)) (N.to_nat (r - 1 - 1))) as [row Hr]; [unfold len in L; lia|].
    assert (R' : row_of (tb_method_def (m_tables md)) (r - 1) row) by (split; [lia|exact Hr]).
    destruct (C34_method_tokens _ _ _ _ _ _ _ _ _ _ _ _ H Em Hmd Hl E (later_now _ _ _) R') as (x' & j & owner & Q & _ & _ & As).
    assert (x' = x) as -> by (rewrite Er in Q; congruence). exists ai, x, row, owner. auto.
  - exfalso. destruct (C34_no_such_row _ _ _ _ _ _ _ _ _ _ (r - 1) H Em Hmd Hl E (later_now _ _ _)) as (_ & X & _); [lia|].
    rewrite (X L) in Er. discriminate.
Qed.

(** In particular an assembly whose entry point is its first method is never loaded. *)
Theorem C10_first_method_refuted p fs paths s fuel data md a s1 :
  history p fs paths s -> read_metadata p data tt = Ok md tt -> addressable md -> well_listed md ->
  ch_entry_point (m_cli_header md) = 0x06000001 ->
  load_data fuel p fs data s <> Ok a s1.
Proof.
  intros H Em Hmd Hl T E.
  destruct (C10_entry_point_partial _ _ _ _ _ _ _ _ _ 1 H Em Hmd Hl T ltac:(split; [lia|reflexivity]) E) as (ai & x & row & o & _ & _ & [K _] & _).
  lia.
Qed.

(** ** C38 and C60 *)

Lemma loaded_spec arena l n : loaded arena l n = true <->
  exists a ai, In a l /\ nth_error arena a = Some (Some ai) /\ a_name ai = n.
Proof.
  induction l as [|a l IH]; cbn [loaded].
  - split; [discriminate|]. intros (a & ai & [] & _).
  - assert (Q : loaded arena l n = true <-> exists b bi, In b l /\ nth_error arena b = Some (Some bi) /\ a_name bi = n) by exact IH.
    assert (X : forall ai, nth_error arena a = Some (Some ai) -> a_name ai <> n \/ a_name ai = n).
    { intros ai _. destruct (bytes_eqb (a_name ai) n) eqn:B; [right; now apply bytes_eqb_spec|].
      left. intro C. apply bytes_eqb_spec in C. congruence. }
    destruct (nth_error arena a) as [[ai|]|] eqn:Ea.
    + rewrite orb_true_iff, Q, bytes_eqb_spec. split.
      * intros [B|(b & bi & I & J)]; [exists a, ai|exists b, bi]; cbn; auto.
      * intros (b & bi & [<-|I] & J & K); [left; congruence|right; eauto].
    + rewrite Q. split; intros (b & bi & I & J & K).
      * exists b, bi. cbn. auto.
      * destruct I as [<-|I]; [congruence|eauto].
    + rewrite Q. split; intros (b & bi & I & J & K).
      * exists b, bi. cbn. auto.
      * destruct I as [<-|I]; [congruence|eauto].
Qed.

Lemma references_quiet fs (f : list byte -> M vm aref) md s (rows : list assembly_ref_row) :
  (forall row n, In row rows -> heap_text md (ar_name row) n -> loaded_as s n) ->
  iter_m (fun r =>
        rn <- ok_or (string_at md (ar_name r)) "invalid assembly references" ;;
        s <- get_state ;;
        if loaded (c_arena s) (c_assemblies s) rn then ret tt
        else
          path <- ok_or (resolve_assembly_name fs (c_paths s) rn) "Could not locate assembly" ;;
          match fs (fst path) (snd path) with
          | File d => f d ;;; ret tt
          | _ => fail "cannot read file"
          end) rows s =
  if forallb (fun r => match string_at md (ar_name r) with Some _ => true | None => false end) rows then Ok tt s
  else Err "invalid assembly references" s.
Proof.
  induction rows as [|r rows IH]; intros A; [reflexivity|]. cbn [iter_m forallb].
  destruct (string_at md (ar_name r)) as [n|] eqn:En.
  - unfold bind at 1. unfold bind at 1. unfold ok_or at 1. unfold ret at 1. unfold get_state, bind at 1.
    assert (L : loaded (c_arena s) (c_assemblies s) n = true).
    { apply loaded_spec. apply (A r n); [now left|]. now apply string_at_inv. }
    rewrite L. cbn [ret andb]. apply IH. intros row m I. apply A. now right.
  - reflexivity.
Qed.

(** A load that has all its references runs [load_contents] in the state it started in, or fails there. *)
Lemma load_alone p fs fuel data s md r : consistent p s -> read_metadata p data tt = Ok md tt -> references_loaded s md ->
  load_data fuel p fs data s = r ->
  match r with
  | Err e s1 => s1 = s \/
      (exists refs trefs, load_method_refs p md (tb_member_ref (m_tables md)) s = Ok refs s /\ load_type_refs p md s = Ok trefs s) /\
      c_assemblies s1 = c_assemblies s
  | Ok _ s1 => exists trefs, load_type_refs p md s = Ok trefs s
  | _ => True
  end.
Proof.
  intros W Em Rl <-. destruct fuel as [|fuel]; [exact I|]. cbn [load_data].
  unfold bind at 1. unfold lift. rewrite Em. unfold bind at 1.
  pose proof (pure_row_at p (tb_assembly (m_tables md)) (handle_of_position TAssembly 0) s) as P1.
  destruct (row_at p _ _ s) as [row s'|e s'|w|w|]; auto. subst s'.
  unfold bind at 1. pose proof (pure_unwrap (S := vm) (string_at md (as_name row)) s) as P2.
  destruct (unwrap _ s) as [n s'|e s'|w|w|]; auto. subst s'.
  unfold bind at 1. rewrite (references_quiet fs (load_data fuel p fs) md s _ Rl).
  destruct (forallb _ _); [|auto].
  unfold bind at 1. pose proof (pure_load_method_refs p md (tb_member_ref (m_tables md)) s) as P3.
  destruct (load_method_refs p md _ s) as [refs s'|e s'|w|w|] eqn:E4; auto. subst s'.
  unfold bind at 1. pose proof (pure_load_type_refs p md s) as P4.
  destruct (load_type_refs p md s) as [trefs s'|e s'|w|w|] eqn:E5; auto. subst s'.
  destruct (pres_run_ok _ _ _ _ _ _ _ (load_method_refs_pres p md _ s) W E4) as (_ & _ & _ & Vm).
  destruct (pres_run_ok _ _ _ _ _ _ _ (load_type_refs_pres p md s) W E5) as (_ & _ & _ & Vt).
  unfold bind, new_assembly, drop_on_error.
  destruct (new_assembly_ready p s n (m_user_strings md) _ _ W Vm Vt) as (W2 & N2 & L2).
  pose proof (load_contents_ends p md _ _ fuel _ L2 (ex_intro _ _ N2) W2) as H.
  destruct (load_contents fuel p md _ _) as [u s3|e s3|w|w|]; eauto.
  right. split; [eauto|]. destruct H as (_ & R3). cbn [c_assemblies set_arena]. exact (wi_loaded _ _ _ _ R3).
Qed.

(** A file that is not an assembly changes nothing. *)
Theorem C38_unreadable p fs fuel data e s : read_metadata p data tt = Err e tt ->
  load_data (S fuel) p fs data s = Err e s.
Proof. intro E. cbn [load_data]. unfold bind, lift. now rewrite E. Qed.

(** Neither does one that refers to a type that is not there. *)
Theorem C38_unknown_type p fs paths fuel data md s row n ns r :
  history p fs paths s -> read_metadata p data tt = Ok md tt -> references_loaded s md ->
  In row (tb_type_ref (m_tables md)) -> heap_text md (tr_name row) n -> heap_text md (tr_namespace row) ns ->
  unnamed (c_types s) (qualified n ns) ->
  load_data fuel p fs data s = r ->
  match r with Ok _ _ => False | Err _ s1 => s1 = s | _ => True end.
Proof.
  intros H Em Rl I Hn Hns U E. destruct (history_ok _ _ _ _ H) as (W & _).
  assert (N : forall trefs, load_type_refs p md s <> Ok trefs s).
  { intros trefs T. destruct (type_refs_run _ _ _ _ _ W T) as [_ F]. apply In_nth_error in I as [i Ei].
    destruct (Forall2_nth_error_l _ _ _ _ _ F Ei) as (t & _ & n' & ns' & Hn' & Hns' & [(ti & X & Y) _]).
    apply string_at_text in Hn, Hns, Hn', Hns'. assert (n' = n) as -> by congruence. assert (ns' = ns) as -> by congruence.
    apply nth_error_In in X. exact (U _ X Y). }
  pose proof (load_alone _ _ _ _ _ _ _ W Em Rl E) as L. destruct r as [a s1|e s1|w|w|]; auto.
  - destruct L as [trefs T]. exact (N _ T).
  - destruct L as [L|[(refs & trefs & _ & T) _]]; [exact L|]. destruct (N _ T).
Qed.

(** In general a failed load takes nothing away: all types, assemblies and output that were there
    are unchanged.  When the references were loaded before, no assembly is added; types may be. *)
Theorem C38_failed_load_partial p fs paths fuel data s e s1 :
  history p fs paths s -> load_data fuel p fs data s = Err e s1 ->
  (exists l, c_types s1 = c_types s ++ l) /\ (exists l, c_assemblies s1 = c_assemblies s ++ l) /\
  c_output s1 = c_output s /\ c_paths s1 = c_paths s /\ c_primitives s1 = c_primitives s /\
  (forall a ai, nth_error (c_arena s) a = Some ai -> nth_error (c_arena s1) a = Some ai) /\
  (forall md, read_metadata p data tt = Ok md tt -> references_loaded s md -> c_assemblies s1 = c_assemblies s).
Proof.
  intros H E. destruct (history_ok _ _ _ _ H) as (W & _).
  destruct (pres_run_err _ _ _ _ _ _ _ (load_data_pres p fs fuel data s) W E) as (_ & [A B C D T [l Q]]).
  split; [exact T|]. split; [exact D|]. split; [exact B|]. split; [exact A|]. split; [exact C|]. split.
  - intros a ai X. rewrite Q, nth_error_app1; [exact X|exact (nth_lt _ _ _ X)].
  - intros md Em Rl. pose proof (load_alone _ _ _ _ _ _ _ W Em Rl E) as [->|[_ L]]; [reflexivity|exact L].
Qed.

(** ** C60 *)

Lemma resolve_name_spec fs n : forall paths,
  match resolve_assembly_name fs paths n with
  | Some c => first_there (fun c => fs (fst c) (snd c) <> Missing) (candidates paths n) c
  | None => forall c, In c (candidates paths n) -> fs (fst c) (snd c) = Missing
  end.
Proof.
  induction paths as [|d paths IH]; cbn [resolve_assembly_name candidates flat_map app].
  - intros c [].
  - destruct (fs d (n ++ bytes_of_string ".dll")) eqn:E1; cbn [exists_entry].
    + destruct (fs d (n ++ bytes_of_string ".exe")) eqn:E2; cbn [exists_entry].
      * destruct (resolve_assembly_name fs paths n) as [c|].
        -- destruct IH as (pre & post & Ec & Tc & Nc). fold (candidates paths n). rewrite Ec.
           exists ((d, n ++ bytes_of_string ".dll") :: (d, n ++ bytes_of_string ".exe") :: pre), post.
           split; [reflexivity|]. split; [exact Tc|]. intros x [<-|[<-|X]]; [intro N; exact (N E1)|intro N; exact (N E2)|auto].
        -- intros c [<-|[<-|X]]; auto.
      * exists [(d, n ++ bytes_of_string ".dll")], (candidates paths n). split; [reflexivity|].
        cbn [fst snd]. split; [congruence|]. intros x [<-|[]] N. exact (N E1).
      * exists [(d, n ++ bytes_of_string ".dll")], (candidates paths n). split; [reflexivity|].
        cbn [fst snd]. split; [congruence|]. intros x [<-|[]] N. exact (N E1).
    + exists [], ((d, n ++ bytes_of_string ".exe") :: candidates paths n). split; [reflexivity|]. cbn [fst snd]. split; [congruence|]. intros x [].
    + exists [], ((d, n ++ bytes_of_string ".exe") :: candidates paths n). split; [reflexivity|]. cbn [fst snd]. split; [congruence|]. intros x [].
Qed.
Lemma first_unique there l c c' : first_there there l c -> first_there there l c' -> c = c'.
Proof.
  intros (p1 & q1 & -> & T1 & N1) (p2 & q2 & E & T2 & N2). revert p2 E N2.
  induction p1 as [|x p1 IH]; intros [|y p2] E N2; cbn in E; injection E as E1 E2.
  - exact E1.
  - subst y. destruct (N2 c (or_introl eq_refl) T1).
  - subst x. destruct (N1 c' (or_introl eq_refl) T2).
  - apply (IH ltac:(intros z Z; apply N1; now right) p2 E2). intros z Z. apply N2. now right.
Qed.

(** Loading by name reads the first file that is there, in the order of the search path and with
    [.dll] before [.exe], and only that one. *)
Theorem C60_first_file p fs fuel n s c : 
  first_there (fun c => fs (fst c) (snd c) <> Missing) (candidates (c_paths s) n) c ->
  load_assembly fuel p fs n s =
  match fs (fst c) (snd c) with File d => load_data fuel p fs d s | _ => Err "cannot read file" s end.
Proof.
  intro F. unfold load_assembly, bind, get_state. pose proof (resolve_name_spec fs n (c_paths s)) as R.
  destruct (resolve_assembly_name fs (c_paths s) n) as [c'|].
  - rewrite (first_unique _ _ _ _ F R). cbn [ok_or ret]. unfold load_path. destruct (fs _ _); reflexivity.
  - destruct F as (pre & post & E & T & _). destruct T. apply R. rewrite E. apply in_elt.
Qed.
(** Where there is none, loading fails and changes nothing. *)
Theorem C60_no_file p fs fuel n s :
  (forall c, In c (candidates (c_paths s) n) -> fs (fst c) (snd c) = Missing) ->
  load_assembly fuel p fs n s = Err "Could not locate assembly" s.
Proof.
  intro F. unfold load_assembly, bind, get_state. pose proof (resolve_name_spec fs n (c_paths s)) as R.
  destruct (resolve_assembly_name fs (c_paths s) n) as [c'|]; [|reflexivity].
  destruct R as (pre & post & E & T & _). destruct T. apply F. rewrite E. apply in_elt.
Qed.
(** References to assemblies that are loaded are not looked for: the files do not matter. *)
Theorem C60_loaded_references p fs fs' fuel data md s :
  read_metadata p data tt = Ok md tt -> references_loaded s md ->
  load_data fuel p fs data s = load_data fuel p fs' data s.
Proof.
  intros Em Rl. destruct fuel as [|fuel]; [reflexivity|]. cbn [load_data].
  unfold bind at 1. symmetry. unfold bind at 1. symmetry. unfold lift. rewrite Em.
  unfold bind at 1. symmetry. unfold bind at 1. symmetry.
  pose proof (pure_row_at p (tb_assembly (m_tables md)) (handle_of_position TAssembly 0) s) as P1.
  destruct (row_at p _ _ s) as [row s'|e s'|w|w|]; auto. subst s'.
  unfold bind at 1. symmetry. unfold bind at 1. symmetry. pose proof (pure_unwrap (S := vm) (string_at md (as_name row)) s) as P2.
  destruct (unwrap _ s) as [n s'|e s'|w|w|]; auto. subst s'.
  unfold bind at 1. symmetry. unfold bind at 1. symmetry.
  rewrite (references_quiet fs (load_data fuel p fs) md s _ Rl), (references_quiet fs' (load_data fuel p fs') md s _ Rl). reflexivity.
Qed.

(** ** Examples *)

Fixpoint ascending (l : list N) : bool :=
  match l with x :: (y :: _) as l' => (x <=? y) && ascending l' | _ => true end.
Lemma check_consecutive starts total : nth_error starts 0 = Some 1 -> ascending (starts ++ [total + 1]) = true ->
  total + 1 < 2 ^ 24 -> consecutive starts total.
Proof.
  intros A B C. split; [exact A|]. split; [|exact C]. clear A C. revert B. generalize (starts ++ [total + 1]).
  intro l. induction l as [|x l IH]; intros B i u v E1 E2; [destruct i; discriminate|].
  destruct l as [|y l]; [destruct i as [|[|]]; discriminate|]. cbn [ascending] in B. apply andb_prop in B as [B1 B2].
  destruct i as [|i]; cbn in E1, E2.
  - injection E1 as <-. injection E2 as <-. now apply N.leb_le.
  - exact (IH B2 i u v E1 E2).
Qed.
Ltac addressable_here := split; [vm_compute; reflexivity|split; [vm_compute; reflexivity|]];
  constructor; [split; [vm_compute; reflexivity|vm_compute; discriminate]|constructor].
Ltac listed_here := split; [vm_compute; reflexivity|split; apply check_consecutive; vm_compute; reflexivity].
Ltac text_here := apply check_text; vm_compute; reflexivity.

Lemma demo_md_ok p : read_metadata p app_image tt = Ok demo_md tt.
Proof.
  pose proof (demo_md_read p) as E. destruct (read_metadata p app_image tt) as [m []|e s'|w|w|]; cbn in E; try discriminate.
  injection E as ->. reflexivity.
Qed.
Lemma demo_md_fine : addressable demo_md /\ well_listed demo_md.
Proof. split; [addressable_here|listed_here]. Qed.
Lemma zoo_md_fine : addressable zoo_md /\ well_listed zoo_md.
Proof. split; [addressable_here|listed_here]. Qed.
Lemma client_md_fine : addressable client_md /\ well_listed client_md.
Proof. split; [addressable_here|listed_here]. Qed.
Lemma first_md_fine : addressable first_md /\ well_listed first_md.
Proof. split; [addressable_here|listed_here]. Qed.

(** The third type of the application, [App.Point], extends [System.Object] and implements [App.IShape]. *)
Example C68_type_shape_example p : history p no_files [] demo_vm /\ read_metadata p app_image tt = Ok demo_md tt /\
  addressable demo_md /\ well_listed demo_md /\ load_data 10 p no_files app_image demo_vm = Ok 2%nat demo_app /\
  exists row, row_of (tb_type_def (m_tables demo_md)) 3 row /\
    extends demo_md row (Some (bytes_of_string "System.Object")) /\
    kind_of row (Some (bytes_of_string "System.Object")) KClass /\
    implements demo_md (bytes_of_string "App.Point") (tb_interface_impl (m_tables demo_md)) [bytes_of_string "App.IShape"].
Proof.
  split; [apply demo_vm_history|]. split; [apply demo_md_ok|]. split; [apply demo_md_fine|]. split; [apply demo_md_fine|].
  split; [apply demo_app_loaded|]. eexists. split; [split; [vm_compute; discriminate|vm_compute; reflexivity]|]. split; [|split].
  - exists InTypeRef, 1. split; [reflexivity|].
    change (bytes_of_string "System.Object") with (qualified (bytes_of_string "Object") (bytes_of_string "System")).
    eapply in_type_ref; [vm_compute; discriminate|vm_compute; reflexivity| |]; text_here.
  - apply a_class; vm_compute; [reflexivity| | |]; discriminate.
  - eapply row_for_it with (tab := InTypeDef) (k := 2); [|reflexivity| |apply no_rows].
    + change (bytes_of_string "App.Point") with (qualified (bytes_of_string "Point") (bytes_of_string "App")).
      eapply in_type_def; [vm_compute; discriminate|vm_compute; reflexivity| |]; text_here.
    + change (bytes_of_string "App.IShape") with (qualified (bytes_of_string "IShape") (bytes_of_string "App")).
      eapply in_type_def; [vm_compute; discriminate|vm_compute; reflexivity| |]; text_here.
Qed.
(** It has the two fields of rows 1 and 2. *)
Example C68_type_members_example : (exists row, row_of (tb_type_def (m_tables demo_md)) 3 row /\ td_field_list row = 1) /\
  belongs (map td_field_list (tb_type_def (m_tables demo_md))) (1 + N.of_nat 1) 3 /\
  ~ belongs (map td_field_list (tb_type_def (m_tables demo_md))) (1 + N.of_nat 2) 3 /\
  exists ti, nth_error (c_types demo_app) 23 = Some ti /\ map f_name (ti_fields ti) = [bytes_of_string "x"; bytes_of_string "y"].
Proof.
  split; [|split; [|split]].
  - eexists. split; [split; [vm_compute; discriminate|vm_compute; reflexivity]|reflexivity].
  - exists 1. split; [split; [vm_compute; discriminate|vm_compute; reflexivity]|]. split; [vm_compute; discriminate|].
    intros y [_ E]. vm_compute in E. injection E as <-. reflexivity.
  - intros (x & _ & _ & U). specialize (U 3). cbn in U. assert (3 < 3); [|lia]. apply U. split; [lia|vm_compute; reflexivity].
  - eexists. split; [vm_compute; reflexivity|vm_compute; reflexivity].
Qed.
(** Row 2 of the field table of the application is the field [y] of [Point], the third type. *)
Example C34_field_tokens_example p : history p no_files [] demo_vm /\ read_metadata p app_image tt = Ok demo_md tt /\
  addressable demo_md /\ well_listed demo_md /\ load_data 10 p no_files app_image demo_vm = Ok 2%nat demo_app /\
  later p no_files demo_app demo_app /\
  (exists row, row_of (tb_field (m_tables demo_md)) 2 row /\ heap_text demo_md (fd_name row) (bytes_of_string "y")) /\
  belongs (map td_field_list (tb_type_def (m_tables demo_md))) 2 3.
Proof.
  split; [apply demo_vm_history|]. split; [apply demo_md_ok|]. split; [apply demo_md_fine|]. split; [apply demo_md_fine|].
  split; [apply demo_app_loaded|]. split; [apply later_now|].
  split.
  - eexists. split; [split; [vm_compute; discriminate|vm_compute; reflexivity]|]. text_here.
  - exists 1. split; [split; [vm_compute; discriminate|vm_compute; reflexivity]|]. split; [vm_compute; discriminate|].
    intros y [_ E]. vm_compute in E. injection E as <-. reflexivity.
Qed.
(** Row 3 of the method table is [Main] of [Program], the fifth type. *)
Example C34_method_tokens_example :
  (exists row, row_of (tb_method_def (m_tables demo_md)) 3 row /\ heap_text demo_md (me_name row) (bytes_of_string "Main")) /\
  belongs (map td_method_list (tb_type_def (m_tables demo_md))) 3 5 /\
  (exists m, (forall p, resolve_method p 2%nat 0x06000003 demo_app = Ok (Some m) demo_app) /\ mt_name m = bytes_of_string "Main").
Proof.
  split; [|split].
  - eexists. split; [split; [vm_compute; discriminate|vm_compute; reflexivity]|]. text_here.
  - exists 2. split; [split; [vm_compute; discriminate|vm_compute; reflexivity]|]. split; [vm_compute; discriminate|].
    intros y [_ E]. vm_compute in E. discriminate.
  - eexists. split; [intros []; vm_compute; reflexivity|vm_compute; reflexivity].
Qed.
Example C34_no_such_row_example : len (tb_field (m_tables demo_md)) < 5 /\ 5 < 2 ^ 24.
Proof. split; vm_compute; reflexivity. Qed.

(** Row 3 of the type table is [App.Point], and row 2 of the references is [System.Console]. *)
Example C65_type_tokens_example :
  (exists row, row_of (tb_type_def (m_tables demo_md)) 3 row /\ heap_text demo_md (td_name row) (bytes_of_string "Point")) /\
  (exists row, row_of (tb_type_ref (m_tables demo_md)) 2 row /\ heap_text demo_md (tr_name row) (bytes_of_string "Console")).
Proof.
  split.
  - eexists. split; [split; [vm_compute; discriminate|vm_compute; reflexivity]|]. text_here.
  - eexists. split; [split; [vm_compute; discriminate|vm_compute; reflexivity]|]. text_here.
Qed.

(** No row after that of [App.Point] has its name. *)
Example C65_type_names_example :
  row_name demo_md InTypeDef 3 (bytes_of_string "App.Point") /\ forall j, 3 < j -> ~ row_name demo_md InTypeDef j (bytes_of_string "App.Point").
Proof.
  split.
  - change (bytes_of_string "App.Point") with (qualified (bytes_of_string "Point") (bytes_of_string "App")).
    eapply in_type_def; [lia|vm_compute; reflexivity| |]; text_here.
  - intros j L X. inversion X as [? d n ns K E Hn Hns T R EQ|]; subst. pose proof (nth_lt _ _ _ E) as Lj.
    assert (Q : List.length (tb_type_def (m_tables demo_md)) = 5%nat) by (vm_compute; reflexivity). rewrite Q in Lj.
    apply string_at_text in Hn. apply string_at_text in Hns.
    destruct (N.to_nat (j - 1)) as [|[|[|[|[|i]]]]] eqn:Ej; try lia; vm_compute in E; injection E as <-; vm_compute in Hn, Hns;
    injection Hn as <-; injection Hns as <-; vm_compute in EQ; discriminate EQ.
Qed.

(** [Helper] has two methods called [Run]: the lookup finds the second, whose parameter is a long. *)
Example C66_example p : history p no_files [] demo_zoo /\
  exists ti, nth_error (c_types demo_zoo) 26 = Some ti /\ map mt_name (ti_methods ti) = [bytes_of_string "Run"; bytes_of_string "Run"] /\
  exists m1 m2, ti_methods ti = [m1; m2] /\ m1 <> m2 /\ get_method 26%nat (bytes_of_string "Run") demo_zoo = Ok (Some m2) demo_zoo.
Proof.
  split; [apply demo_zoo_history|]. eexists. split; [vm_compute; reflexivity|]. split; [vm_compute; reflexivity|].
  eexists. eexists. split; [vm_compute; reflexivity|]. split; [discriminate|vm_compute; reflexivity].
Qed.

(** The application refers to [Write] of [System.Console] and to the constructor of [System.Object]. *)
Example C35_example p : history p no_files [] demo_vm /\ read_metadata p app_image tt = Ok demo_md tt /\
  (forall r, In r (tb_member_ref (m_tables demo_md)) -> ref_table (mr_parent r) = TTypeRef) /\
  (exists row, row_of (tb_member_ref (m_tables demo_md)) 1 row /\ heap_text demo_md (mr_name row) (bytes_of_string "Write") /\
     parent_of demo_md row (bytes_of_string "System.Console")) /\
  (exists row, row_of (filter of_type_ref (tb_member_ref (m_tables demo_md))) 2 row /\ heap_text demo_md (mr_name row) (bytes_of_string ".ctor")).
Proof.
  split; [apply demo_vm_history|]. split; [apply demo_md_ok|]. split; [|split].
  - intros r [<-|[<-|[]]]; reflexivity.
  - eexists. split; [split; [vm_compute; discriminate|vm_compute; reflexivity]|]. split; [text_here|].
    eexists. exists (bytes_of_string "Console"), (bytes_of_string "System").
    split; [split; [vm_compute; discriminate|vm_compute; reflexivity]|]. split; [text_here|]. split; [text_here|reflexivity].
  - eexists. split; [split; [vm_compute; discriminate|vm_compute; reflexivity]|]. text_here.
Qed.

(** With another kind of parent the tokens are shifted: row 2 of this table is [Write] of
    [System.Console], but its token gives the constructor of [System.Object]. *)
Theorem C35_other_parents_refuted p : 
  read_metadata p zoo_image tt = Ok zoo_md tt /\ load_data 10 p no_files zoo_image demo_vm = Ok 2%nat demo_zoo /\
  exists row m, row_of (tb_member_ref (m_tables zoo_md)) 2 row /\ heap_text zoo_md (mr_name row) (bytes_of_string "Write") /\
    parent_of zoo_md row (bytes_of_string "System.Console") /\
    resolve_method p 2%nat 0x0a000002 demo_zoo = Ok (Some m) demo_zoo /\ mt_name m = bytes_of_string ".ctor" /\
    is_named (c_types demo_zoo) (mt_declaring m) (bytes_of_string "System.Object").
Proof.
  split; [apply zoo_md_read|]. split; [apply demo_zoo_loaded|]. eexists. eexists.
  split; [split; [vm_compute; discriminate|vm_compute; reflexivity]|]. split; [text_here|]. split.
  { eexists. exists (bytes_of_string "Console"), (bytes_of_string "System").
    split; [split; [vm_compute; discriminate|vm_compute; reflexivity]|]. split; [text_here|]. split; [text_here|reflexivity]. }
  split; [destruct p; vm_compute; reflexivity|]. split; [vm_compute; reflexivity|]. eexists. split; vm_compute; reflexivity.
Qed.
(** The signature is not looked at: the reference to [Run] of an int gives [Run] of a long. *)
Theorem C35_overloads_refuted p :
  read_metadata p client_image tt = Ok client_md tt /\ load_data 10 p no_files client_image demo_zoo = Ok 3%nat demo_client /\
  exists row m par, row_of (tb_member_ref (m_tables client_md)) 1 row /\
    heap_blob client_md (mr_signature row) (enc_method_sig
      {| ms_has_this := false; ms_explicit := false; ms_is_vararg := false; ms_generic := None;
         ms_result := TSimple PI4; ms_args := [TSimple PI4]; ms_extra := [] |}) /\
    resolve_method p 3%nat 0x0a000001 demo_client = Ok (Some m) demo_client /\
    map pa_type (mt_params m) = [par] /\ is_named (c_types demo_client) par (bytes_of_string "System.Int64").
Proof.
  split; [apply client_md_read|]. split; [apply demo_client_loaded|]. eexists. eexists. eexists.
  split; [split; [vm_compute; discriminate|vm_compute; reflexivity]|]. split.
  { split; [|vm_compute; reflexivity]. apply check_bytes_at. vm_compute. reflexivity. }
  split; [destruct p; vm_compute; reflexivity|]. split; [vm_compute; reflexivity|]. eexists. split; vm_compute; reflexivity.
Qed.

(** The entry point of the application in the header is row 3, [Main]; the runtime takes [Add]. *)
Example C10_example p : history p no_files [] demo_vm /\ read_metadata p app_image tt = Ok demo_md tt /\
  addressable demo_md /\ well_listed demo_md /\ ch_entry_point (m_cli_header demo_md) = 0x06000000 + 3 /\
  load_data 10 p no_files app_image demo_vm = Ok 2%nat demo_app.
Proof.
  split; [apply demo_vm_history|]. split; [apply demo_md_ok|]. split; [apply demo_md_fine|]. split; [apply demo_md_fine|].
  split; [vm_compute; reflexivity|apply demo_app_loaded].
Qed.
Theorem C10_entry_point_refuted p : load_data 10 p no_files app_image demo_vm = Ok 2%nat demo_app /\
  (exists row, row_of (tb_method_def (m_tables demo_md)) (token_index (ch_entry_point (m_cli_header demo_md))) row /\
     heap_text demo_md (me_name row) (bytes_of_string "Main")) /\
  exists ai x, nth_error (c_arena demo_app) 2 = Some (Some ai) /\ a_entry ai = Some x /\ mt_name x = bytes_of_string "Add".
Proof.
  split; [apply demo_app_loaded|]. split.
  - eexists. split; [split; [vm_compute; discriminate|vm_compute; reflexivity]|]. text_here.
  - eexists. eexists. split; [vm_compute; reflexivity|]. split; vm_compute; reflexivity.
Qed.
Example C10_no_entry_point_example p : history p no_files [] demo_vm /\ read_metadata p zoo_image tt = Ok zoo_md tt /\
  addressable zoo_md /\ well_listed zoo_md /\ token_index (ch_entry_point (m_cli_header zoo_md)) = 0 /\
  load_data 10 p no_files zoo_image demo_vm = Ok 2%nat demo_zoo.
Proof.
  split; [apply demo_vm_history|]. split; [apply zoo_md_read|]. split; [apply zoo_md_fine|]. split; [apply zoo_md_fine|].
  split; [vm_compute; reflexivity|apply demo_zoo_loaded].
Qed.
Example C10_first_method_example p : history p no_files [] demo_vm /\ read_metadata p first_image tt = Ok first_md tt /\
  addressable first_md /\ well_listed first_md /\ ch_entry_point (m_cli_header first_md) = 0x06000001.
Proof.
  split; [apply demo_vm_history|]. split; [apply first_md_read|]. split; [apply first_md_fine|]. split; [apply first_md_fine|].
  vm_compute. reflexivity.
Qed.

Lemma check_loaded s md : forallb (fun r => match string_at md (ar_name r) with
    Some n => loaded (c_arena s) (c_assemblies s) n | None => true end) (tb_assembly_ref (m_tables md)) = true ->
  references_loaded s md.
Proof.
  intros H row n I T. rewrite forallb_forall in H. specialize (H _ I). rewrite (string_at_text _ _ _ T) in H.
  now apply loaded_spec.
Qed.
Example C38_unreadable_example p : exists e, read_metadata p [x4d; x5a; x00] tt = Err e tt.
Proof. destruct p; eexists; vm_compute; reflexivity. Qed.
(** The type [Xelper] that this client refers to is not there. *)
Example C38_unknown_type_example p : history p no_files [] demo_zoo /\ read_metadata p odd_image tt = Ok odd_md tt /\
  references_loaded demo_zoo odd_md /\
  (exists row, In row (tb_type_ref (m_tables odd_md)) /\ heap_text odd_md (tr_name row) (bytes_of_string "Xelper") /\
     heap_text odd_md (tr_namespace row) (bytes_of_string "Zoo")) /\
  unnamed (c_types demo_zoo) (qualified (bytes_of_string "Xelper") (bytes_of_string "Zoo")) /\
  load_data 10 p no_files odd_image demo_zoo = Err "Cannot find type" demo_zoo.
Proof.
  split; [apply demo_zoo_history|]. split; [apply odd_md_read|]. split; [apply check_loaded; vm_compute; reflexivity|]. split; [|split].
  - eexists. split; [right; left; reflexivity|]. split; text_here.
  - assert (X : forallb (fun ti => negb (bytes_eqb (ti_full_name ti) (qualified (bytes_of_string "Xelper") (bytes_of_string "Zoo")))) (c_types demo_zoo) = true)
      by (vm_compute; reflexivity).
    intros ti I E. rewrite forallb_forall in X. specialize (X _ I). rewrite E, bytes_eqb_refl in X. discriminate.
  - destruct p; vm_compute; reflexivity.
Qed.
(** A load that fails late leaves types behind: two more are known than before. *)
Theorem C38_failed_load_refuted p : exists s1,
  history p no_files [] demo_vm /\ load_data 10 p no_files broken_image demo_vm = Err "No internal method with signature" s1 /\
  List.length (c_types demo_vm) = 21%nat /\ List.length (c_types s1) = 23%nat.
Proof.
  eexists. split; [apply demo_vm_history|]. split; [destruct p; vm_compute; reflexivity|]. split; vm_compute; reflexivity.
Qed.
Example C38_failed_load_example : references_loaded demo_vm broken_md.
Proof. apply check_loaded. vm_compute. reflexivity. Qed.

Definition zoo_name : name := bytes_of_string "Zoo".
(** [Zoo] is in both directories; the [.exe] of the first one comes first. *)
Example C60_first_file_example : c_paths demo_disk = demo_paths /\
  first_there (fun c => demo_files (fst c) (snd c) <> Missing) (candidates demo_paths zoo_name)
    (bytes_of_string "/app", bytes_of_string "Zoo.exe").
Proof.
  split; [reflexivity|]. exists [(bytes_of_string "/app", bytes_of_string "Zoo.dll")]. eexists.
  split; [vm_compute; reflexivity|]. split; [vm_compute; discriminate|]. intros x [<-|[]] N. apply N. vm_compute. reflexivity.
Qed.
Example C60_no_file_example : forall c, In c (candidates (c_paths demo_disk) (bytes_of_string "Other")) -> demo_files (fst c) (snd c) = Missing.
Proof. intros c H. vm_compute in H. repeat destruct H as [<-|H]; [vm_compute; reflexivity..|destruct H]. Qed.
Example C60_loaded_references_example : references_loaded demo_zoo client_md.
Proof. apply check_loaded. vm_compute. reflexivity. Qed.
(** Loading the client by name loads [Zoo] with it.  Loading [Zoo] by name after that loads it a
    second time: there are two assemblies of that name. *)
Theorem C60_loaded_twice_refuted p : exists s2 a1 a2,
  history p demo_files demo_paths demo_disk_client /\ loaded_as demo_disk_client zoo_name /\
  load_assembly 10 p demo_files zoo_name demo_disk_client = Ok 4%nat s2 /\
  nth_error (c_arena s2) 2 = Some (Some a1) /\ nth_error (c_arena s2) 4 = Some (Some a2) /\
  a_name a1 = zoo_name /\ a_name a2 = zoo_name /\ c_assemblies s2 = [0; 1; 2; 3; 4]%nat.
Proof.
  eexists. eexists. eexists. split; [|split].
  - exists 10%nat, system_runtime, system_console, demo_disk. split; [apply demo_disk_started|].
    eapply later_then; [apply later_now|]. eapply ev_load_name. apply demo_disk_client_loaded.
  - exists 2%nat. eexists. split; [right; right; left; reflexivity|]. split; [vm_compute; reflexivity|vm_compute; reflexivity].
  - split; [destruct p; vm_compute; reflexivity|]. split; [vm_compute; reflexivity|]. split; [vm_compute; reflexivity|].
    split; [vm_compute; reflexivity|]. split; vm_compute; reflexivity.
Qed.

Print Assumptions C68_type_shape.
Print Assumptions C68_type_members.
Print Assumptions C65_type_tokens.
Print Assumptions C65_type_ref_tokens.
Print Assumptions C65_type_names.
Print Assumptions C34_field_tokens.
Print Assumptions C34_method_tokens.
Print Assumptions C34_no_such_row.
Print Assumptions C66_field_by_name.
Print Assumptions C66_method_by_name.
Print Assumptions C35_member_ref_tokens_partial.
Print Assumptions C35_type_ref_parents_partial.
Print Assumptions C10_no_entry_point.
Print Assumptions C10_entry_point_partial.
Print Assumptions C10_first_method_refuted.
Print Assumptions C38_unreadable.
Print Assumptions C38_unknown_type.
Print Assumptions C38_failed_load_partial.
Print Assumptions C60_first_file.
Print Assumptions C60_no_file.
Print Assumptions C60_loaded_references.
Print Assumptions C35_other_parents_refuted.
Print Assumptions C35_overloads_refuted.
Print Assumptions C10_entry_point_refuted.
Print Assumptions C38_failed_load_refuted.
Print Assumptions C60_loaded_twice_refuted.

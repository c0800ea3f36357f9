(** Executions without hazards: instructions that use the heap. *)
From Coq Require Import NArith ZArith Arith Lia String List Bool.
From Coq.Strings Require Import Byte.
From Verif Require Import Base BaseFacts ParseSpec Tables ReaderFacts Metadata Blob BinaryReader BlobProofs ReaderProofs Utf Runtime Value Opcodes Gc Interp SpecBytes SpecExec SpecFrames SpecStack SpecRuntime SpecTypes SpecHeap
  SpecSafety RuntimeInv InterpFacts InterpInv FrameFacts VmFacts StackFacts TypeFacts HeapFacts FieldFacts CallFacts TraceFacts PropsDecode PropsHeap SafetyFacts.
Import ListNotations.
Open Scope N_scope.

(** ** Tokens *)

Lemma token_split tok : tok < 2 ^ 32 -> tok = token_table tok * 2 ^ 24 + token_index tok /\ token_index tok < 2 ^ 24.
Proof.
  intro L. unfold token_table, token_index. rewrite N.shiftr_land. change (N.shiftr 4278190080 24) with (N.ones 8).
  rewrite !N.land_ones, N.shiftr_div_pow2 by discriminate. change 16777215 with (N.ones 24). rewrite N.land_ones.
  assert (D : tok / 2 ^ 24 < 2 ^ 8) by (apply N.div_lt_upper_bound; [discriminate|exact L]).
  rewrite (N.mod_small (tok / 2 ^ 24)) by exact D.
  split; [rewrite N.mul_comm; apply N.div_mod; discriminate|apply N.mod_lt; discriminate].
Qed.

Lemma get_row_inv {A} p (l : list A) tok s x s' : len l < 2 ^ 63 -> tok < 2 ^ 32 -> get_row p l tok s = Ok (Some x) s' ->
  exists r, r + 1 < 2 ^ 24 /\ tok = token_table tok * 2 ^ 24 + (r + 1) /\ nth_error l (N.to_nat r) = Some x.
Proof.
  intros L T E. destruct (token_split _ T) as [Q B]. unfold get_row in E.
  unfold u_sub in E. destruct (N.leb_spec 1 (token_index tok)).
  - injection E as E _. exists (token_index tok - 1). replace (token_index tok - 1 + 1) with (token_index tok) by lia. auto.
  - destruct p; [discriminate|]. replace (token_index tok) with 0 in E by lia. exfalso.
    assert (K : 2 ^ 63 <= (2 ^ 64 + 0 - 1) mod 2 ^ 64) by (vm_compute; discriminate).
    set (i := (2 ^ 64 + 0 - 1) mod 2 ^ 64) in *. clearbody i. cbv [bind ret] in E. assert (X : nth_error l (N.to_nat i) = Some x) by congruence.
    apply nth_lt in X. unfold len in L. lia.
Qed.
Lemma the_assembly_run a s ai s' : the_assembly a s = Ok ai s' -> s' = s /\ nth_error (c_arena s) a = Some (Some ai).
Proof. unfold the_assembly. destruct (nth_error (c_arena s) a) as [[x|]|]; try discriminate. intro E. injection E as <- <-. auto. Qed.
Lemma resolve_method_inv p a tok s m s' : vectors s -> tok < 2 ^ 32 -> resolve_method p a tok s = Ok (Some m) s' -> denotes s a tok m.
Proof.
  intros V T E. unfold resolve_method in E. apply bind_inv_ok in E as (ai & s1 & E1 & E).
  apply the_assembly_run in E1 as [-> Ea]. destruct (V _ _ Ea) as (_ & _ & _ & _ & L1 & L2).
  destruct (N.eqb_spec (token_table tok) (table_id TMethodDef)) as [Q|_].
  - apply get_row_inv in E as (r & B & X & N); auto. rewrite Q in X. exists ai, r. auto.
  - destruct (N.eqb_spec (token_table tok) (table_id TMemberRef)) as [Q|_]; [|discriminate].
    apply get_row_inv in E as (r & B & X & N); auto. rewrite Q in X. exists ai, r. auto.
Qed.
Lemma resolve_field_inv p a tok s f s' : vectors s -> tok < 2 ^ 32 -> resolve_field p a tok s = Ok (Some f) s' -> denotes_field s a tok f.
Proof.
  intros V T E. unfold resolve_field in E. apply bind_inv_ok in E as (ai & s1 & E1 & E).
  apply the_assembly_run in E1 as [-> Ea]. destruct (V _ _ Ea) as (_ & L1 & _).
  destruct (N.eqb_spec (token_table tok) (table_id TField)) as [Q|_]; [|discriminate].
  apply get_row_inv in E as (r & B & X & N); auto. rewrite Q in X. exists ai, r. auto.
Qed.
Lemma resolve_type_inv p a tok s t s' : vectors s -> tok < 2 ^ 32 -> resolve_type p a tok s = Ok (Some t) s' -> denotes_type s a tok t.
Proof.
  intros V T E. unfold resolve_type in E. apply bind_inv_ok in E as (ai & s1 & E1 & E).
  apply the_assembly_run in E1 as [-> Ea]. destruct (V _ _ Ea) as (_ & _ & L1 & L2 & _).
  destruct (N.eqb_spec (token_table tok) (table_id TTypeDef)) as [Q|_].
  - apply get_row_inv in E as (r & B & X & N); auto. rewrite Q in X. exists ai, r. auto.
  - destruct (N.eqb_spec (token_table tok) (table_id TTypeRef)) as [Q|_]; [|discriminate].
    apply get_row_inv in E as (r & B & X & N); auto. rewrite Q in X. exists ai, r. auto.
Qed.

(** The token behind an opcode of one byte. *)
Lemma token_here fr b n s : instruction fr [b] -> whole (set_ip fr (fr_ip fr + 1)) (N.of_nat n) ->
  exists bs, instruction fr (b :: bs) /\ List.length bs = n /\
    il_get (set_ip fr (fr_ip fr + 1)) (N.of_nat n) s = Ok (Z.to_N (number bs), set_ip fr (fr_ip fr + 1 + N.of_nat n)) s.
Proof.
  intros (pre & post & C & I) W. unfold whole in W. cbn [fr_ip set_ip fr_code] in W. rewrite C, I, !len_app in W. change (len [b]) with 1 in W.
  exists (firstn n post). assert (L : List.length (firstn n post) = n) by (rewrite firstn_length; unfold len in W; lia).
  assert (H : code_here fr (b :: firstn n post)).
  { exists pre, (skipn n post). split; [|exact I]. rewrite C. cbn. now rewrite firstn_skipn. }
  split; [exact H|]. split; [exact L|]. rewrite number_le_dec, N2Z.id.
  apply (code_here_drop fr [b]) in H. change (len [b]) with 1 in H. now apply il_get_here; [|unfold len; rewrite L].
Qed.
Lemma number_bound bs : List.length bs = 4%nat -> Z.to_N (number bs) < 2 ^ 32.
Proof. intro L. rewrite number_le_dec, N2Z.id. pose proof (le_dec_bound bs) as B. unfold len in B. now rewrite L in B. Qed.

(** ** Blocks *)

Lemma shape_appends p s more b : consistent p s -> shape (c_types s) b -> shape (c_types s ++ more) b.
Proof.
  intros W H. destruct H as [t ti n id fields E I S L|t ti n length id eid l es Li E I S El L|k id l cs Li El L].
  - econstructor; eauto; [|eapply size_appends; eauto]. rewrite nth_error_app1; [exact E|exact (nth_lt _ _ _ E)].
  - econstructor; eauto; [|eapply size_appends; eauto]. rewrite nth_error_app1; [exact E|exact (nth_lt _ _ _ E)].
  - econstructor; eauto.
Qed.
Lemma len_encoded text cs : Forall2 (encodes 2) text cs -> len (concat cs) = 2 * len text.
Proof.
  induction 1 as [|u c text cs H _ IH]; [reflexivity|]. cbn [concat]. rewrite len_app, len_cons, IH. unfold len at 1. rewrite (proj1 H). lia.
Qed.
Lemma block_shape ts r b : block ts r b -> shape ts b.
Proof.
  intro B. destruct B as [t ti n id E I S|t ti u ui n length id eid l Eu Iu Lu E I S El|u ui text id l cs Eu Iu Lu El Cs].
  - econstructor; eauto. unfold zeros. apply len_zeros.
  - econstructor; eauto; [apply Iu|]. unfold zeros. apply len_zeros.
  - econstructor; [apply Iu|exact El|]. now apply len_encoded.
Qed.

Lemma points_more bl b o : points bl o -> points (bl ++ [b]) o.
Proof.
  intros (G & i & L & O). split; [exact G|]. exists i. rewrite app_length. split; [cbn; lia|]. rewrite firstn_app.
  replace (i - List.length bl)%nat with 0%nat by lia. cbn. now rewrite app_nil_r.
Qed.

(** A new block. *)
Lemma heap_allocated {old : snapshot} p ex s o bs s' : consistent p (x_vm s) -> Heap ex s -> allocated s o bs s' -> shape (c_types (x_vm s')) bs ->
  (exists more, c_types (x_vm s') = c_types (x_vm s) ++ more) -> Heap (VObject o :: ex) s'.
Proof.
  intros W H (M & -> & Ef & _ & Eo & Eh & Fit & _) Sh (more & Et) L. rewrite M, len_app in L.
  destruct (H ltac:(lia)) as (G & C & bl & Mb & F & Pt & Ag). destruct (Fit ltac:(lia)) as [G' C'].
  split; [congruence|]. split; [congruence|]. exists (bl ++ [bs]).
  split; [rewrite M, Mb, concat_app; cbn; now rewrite app_nil_r|]. split.
  - apply Forall_app. split; [|constructor; [exact Sh|constructor]]. rewrite Et. eapply Forall_impl; [|exact F]. intros b. now apply (shape_appends p).
  - split; [|now apply ages_more]. intros o Ho. unfold values in *. rewrite Ef, Eo, Eh in Ho. cbn [app] in Ho. destruct Ho as [E|Ho].
    + injection E as <-. split; [cbn; congruence|]. exists (List.length bl). rewrite app_length. split; [cbn; lia|].
      cbn [o_off]. rewrite Mb, firstn_app, firstn_all, Nat.sub_diag. cbn. now rewrite app_nil_r.
    + apply points_more, Pt, Ho.
Qed.

(** The block of an object at hand. *)
Lemma concat_at {A} (bl : list (list A)) i : (i < List.length bl)%nat ->
  exists b, nth_error bl i = Some b /\ concat bl = concat (firstn i bl) ++ b ++ concat (skipn (S i) bl).
Proof.
  intro L. destruct (nth_error bl i) as [b|] eqn:E; [|apply nth_error_None in E; lia]. exists b. split; [reflexivity|].
  destruct (nth_error_split _ _ E) as (l1 & l2 & -> & <-). rewrite firstn_app, Nat.sub_diag, firstn_all. cbn [firstn]. rewrite app_nil_r.
  replace (skipn (S (List.length l1)) (l1 ++ b :: l2)) with l2.
  - rewrite concat_app. reflexivity.
  - rewrite skipn_app, skipn_all2 by lia. replace (S (List.length l1) - List.length l1)%nat with 1%nat by lia. reflexivity.
Qed.
Lemma len_concat_put {A} (bl : list (list A)) i b b' : nth_error bl i = Some b -> len b' = len b ->
  forall j, len (concat (firstn j (firstn i bl ++ b' :: skipn (S i) bl))) = len (concat (firstn j bl)).
Proof.
  intros E L. revert i E. induction bl as [|c bl IH]; intros [|i] E j; try discriminate.
  - cbn in E. injection E as ->. destruct j; [reflexivity|]. cbn. now rewrite !len_app, L.
  - cbn in E. destruct j; [reflexivity|]. cbn [firstn app concat skipn]. rewrite !len_app. f_equal. now apply IH.
Qed.

Lemma heap_at {old : snapshot} ex s o : Heap ex s -> len (memory s) <= 1024 -> In (VObject o) (ex ++ values s) ->
  exists before b after, memory s = before ++ b ++ after /\ o_off o = len before /\ o_gen o = h_gen (x_heap s) /\
    shape (c_types (x_vm s)) b /\
    forall b', aged b b' -> shape (c_types (x_vm s)) b' -> Heap ex (with_memory s (before ++ b' ++ after)).
Proof.
  intros H L Ho. destruct (H L) as (G & C & bl & M & F & Pt & Ag). destruct (Pt _ Ho) as (Go & i & Hi & O).
  destruct (concat_at bl i Hi) as (b & Eb & Ec). exists (concat (firstn i bl)), b, (concat (skipn (S i) bl)).
  split; [congruence|]. split; [exact O|]. split; [congruence|].
  split; [rewrite Forall_forall in F; apply F; exact (nth_error_In _ _ Eb)|].
  intros b' Ab Sb _. pose proof (aged_len _ _ Ab) as Lb. split; [exact G|]. split; [exact C|]. exists (firstn i bl ++ b' :: skipn (S i) bl).
  split; [unfold memory; cbn; now rewrite concat_app|]. split.
  - rewrite <- (firstn_skipn i bl) in F. apply Forall_app in F as [F1 F2]. apply Forall_app. split; [exact F1|]. constructor; [exact Sb|].
    clear - F2 Hi. rewrite Forall_forall in *. intros x Hx. apply F2.
    assert (K : skipn (S i) bl = skipn 1 (skipn i bl)) by (rewrite skip_skip; f_equal; lia). rewrite K in Hx.
    destruct (skipn i bl); [destruct Hx|now right].
  - split; [|exact (ages_put old bl i b b' Ag Eb Ab)]. intros o' Ho'. destruct (Pt o' Ho') as (Go' & j & Hj & Oj). split; [exact Go'|]. exists j. split.
    + rewrite app_length. cbn [List.length]. rewrite firstn_length, skipn_length. lia.
    + rewrite Oj. symmetry. now apply (len_concat_put bl i b b').
Qed.

(** ** Allocations *)

Definition fits (o : obj) (n : N) (s : machine) : Prop := o_gen o = h_gen (x_heap s) /\ o_off o + n <= len (memory s).

Lemma len_splice off bs mem : off + len bs <= len mem -> len (splice off bs mem) = len mem.
Proof. intro L. unfold splice. rewrite !len_app. unfold len in *. rewrite firstn_length, skipn_length. lia. Qed.
Lemma fits_store o n d bs : d + len bs <= n -> hoare (fits o n) (store o d bs) (fun _ => fits o n).
Proof.
  intros L s (G & F). unfold store. rewrite G, Nat.eqb_refl. cbn [negb]. unfold memory in F.
  destruct (N.leb_spec (o_off o + d + len bs) (len (h_mem (x_heap s)))) as [K|K]; [|lia].
  split; [exact G|]. unfold memory. cbn. now rewrite len_splice.
Qed.
Lemma fits_load o n d k : d + k <= n -> hoare (fits o n) (load o d k) (fun _ => fits o n).
Proof.
  intros L s (G & F). unfold load. rewrite G, Nat.eqb_refl. cbn [negb]. unfold memory in F.
  destruct (N.leb_spec (o_off o + d + k) (len (h_mem (x_heap s)))) as [K|K]; [|lia]. now split.
Qed.
Lemma fits_vm {A} o n (m : M vm A) : sound m -> hoare (fits o n) (on_vm m) (fun _ => fits o n).
Proof. intros U s F. unfold on_vm. specialize (U (x_vm s)). destruct (m (x_vm s)) eqn:E; auto. now apply (U why). Qed.
Lemma fits_flag o n f : 1 <= n -> hoare (fits o n) (add_flag o f) (fun _ => fits o n).
Proof.
  intro L. eapply hoare_bind; [apply fits_load; lia|intro b]. apply fits_store. rewrite len_le_enc_N. change (N.of_nat 1) with 1. lia.
Qed.

Lemma sound_reserve n : sound (vec_reserve n).
Proof. intros s w. unfold vec_reserve. cbv zeta. destruct (_ <? _); [|discriminate]. destruct (_ <? _); discriminate. Qed.
Lemma sound_room p n : sound (make_room p n).
Proof.
  unfold make_room, ensure_size. repeat (first [apply sound_bind; [|intros ?]|apply sound_ovf|intros s w; discriminate]).
  - destruct (_ <? _); [apply sound_reserve|apply sound_ret].
  - destruct (_ <? _); [|intros s w; discriminate].
    apply sound_bind; [apply sound_reserve|intro; intros s w; discriminate].
Qed.
Lemma room_fits p n s : no_wrap p (len (memory s) + n) -> 0 < n ->
  match make_room p n s with Ok o s' => fits o n s' /\ x_vm s' = x_vm s | Ub _ => False | _ => True end.
Proof.
  intros NW L. pose proof (sound_room p n s) as U. destruct (make_room p n s) as [o s'|e s'|w|w|] eqn:E; try exact I; [|now apply (U w)].
  apply make_room_run in E as (Q & -> & _); auto. rewrite Q. split; [|reflexivity]. split; [reflexivity|].
  unfold memory. cbn. rewrite len_app, len_zeros. lia.
Qed.
Lemma not_ub {A} (P : machine -> Prop) (m : M machine A) Q s w : hoare P m Q -> P s -> m s <> Ub w.
Proof. intros H Hs E. specialize (H s Hs). now rewrite E in H. Qed.
Lemma sound_bind_at {A B} (m : M machine A) (k : A -> M machine B) s : (forall w, m s <> Ub w) ->
  (forall a s' w, m s = Ok a s' -> k a s' <> Ub w) -> forall w, bind m k s <> Ub w.
Proof. intros H K w. unfold bind. destruct (m s) eqn:E; try discriminate; [now apply K|]. intro X. injection X as ->. now apply (H w). Qed.
Lemma alloc_sound fuel p t s : consistent p (x_vm s) -> (forall n, size (c_types (x_vm s)) t n -> no_wrap p (len (memory s) + 5 + n)) ->
  forall w, alloc fuel p t s <> Ub w.
Proof.
  intros W NW. unfold alloc. apply sound_bind_at; [apply sound_on_vm, sound_type_size|]. intros n s1 w E1. revert w.
  apply on_vm_pure in E1 as [-> E1]; [|apply pure_type_size]. destruct (type_size_run _ _ W _ _ _ _ E1) as (_ & m & S & C). specialize (NW _ S).
  apply sound_bind_at; [apply sound_ovf|]. intros sz s1 w E2. revert w. apply ovf_run in E2 as [-> U].
  rewrite (computed_exact _ _ _ C) in U by (eapply no_wrap_le; [exact NW|lia]).
  apply no_wrap_add in U; [|eapply no_wrap_le; [exact NW|unfold object_header; lia]]. subst sz. unfold object_header.
  pose proof (room_fits p (5 + m) s ltac:(eapply no_wrap_le; [exact NW|lia]) ltac:(lia)) as R.
  apply sound_bind_at; [intros w E; now rewrite E in R|]. intros o s1 w E3. rewrite E3 in R. destruct R as [F _]. revert F. apply not_ub with (Q := fun _ _ => True).
  eapply hoare_bind; [apply fits_vm, sound_id_of|intro id]. eapply hoare_bind; [apply fits_store|intro; now apply hoare_ret].
  rewrite len_le_enc_N. change (N.of_nat 4) with 4. lia.
Qed.
Lemma alloc_array_sound fuel p t length s : consistent p (x_vm s) ->
  (forall n, size (c_types (x_vm s)) t n -> no_wrap p (len (memory s) + 17 + n * length)) ->
  forall w, alloc_array fuel p t length s <> Ub w.
Proof.
  intros W NW. unfold alloc_array. apply sound_bind_at; [apply sound_on_vm, sound_type_size|]. intros n s1 w E1. revert w.
  apply on_vm_pure in E1 as [-> E1]; [|apply pure_type_size]. destruct (type_size_run _ _ W _ _ _ _ E1) as (_ & m & S & C). specialize (NW _ S).
  apply sound_bind_at; [apply sound_ovf|]. intros k s1 w E2. revert w. apply ovf_run in E2 as [-> U].
  apply sound_bind_at; [apply sound_ovf|]. intros sz s1 w E2. revert w. apply ovf_run in E2 as [-> U'].
  assert (K : k = m * length).
  { apply u_mul_mod in U. destruct (N.eq_dec length 0) as [->|NZ].
    - rewrite N.mul_0_r in *. apply computed_exact in U; [exact U|]. intros _. reflexivity.
    - rewrite (computed_exact _ _ _ C) in U by (eapply no_wrap_le; [exact NW|nia]).
      apply computed_exact in U; [exact U|]. eapply no_wrap_le; [exact NW|lia]. }
  subst k. clear U. unfold array_header in *. apply no_wrap_add in U'; [|eapply no_wrap_le; [exact NW|lia]]. subst sz.
  remember (m * length) as k eqn:Hk. clear Hk.
  pose proof (room_fits p (17 + k) s ltac:(eapply no_wrap_le; [exact NW|lia]) ltac:(lia)) as R.
  apply sound_bind_at; [intros w E; now rewrite E in R|]. intros o s1 w E3. rewrite E3 in R. destruct R as [F _]. revert F. apply not_ub with (Q := fun _ _ => True).
  eapply hoare_bind; [apply fits_flag; lia|intro]. eapply hoare_bind; [apply fits_vm, sound_array_of|intro u].
  eapply hoare_bind; [apply fits_vm, sound_id_of|intro id]. eapply hoare_bind; [apply fits_store; rewrite len_le_enc_N; change (N.of_nat 4) with 4; lia|intro].
  eapply hoare_bind; [apply fits_vm, sound_id_of|intro id']. eapply hoare_bind; [apply fits_store; rewrite len_le_enc_N; change (N.of_nat 4) with 4; lia|intro].
  eapply hoare_bind; [apply fits_store; rewrite len_le_enc_N; change (N.of_nat 8) with 8; lia|intro]. now apply hoare_ret.
Qed.
Lemma alloc_string_sound p text s : no_wrap p (len (memory s) + 13 + 2 * len text) ->
  forall w, alloc_string p text s <> Ub w.
Proof.
  intros NW. unfold alloc_string.
  apply sound_bind_at; [apply sound_ovf|]. intros k s1 w E2. revert w. apply ovf_run in E2 as [-> U].
  apply sound_bind_at; [apply sound_ovf|]. intros sz s1 w E2. revert w. apply ovf_run in E2 as [-> U'].
  apply u_mul_mod in U. apply computed_exact in U; [|eapply no_wrap_le; [exact NW|lia]]. subst k.
  unfold string_header in *. apply no_wrap_add in U'; [|eapply no_wrap_le; [exact NW|lia]]. subst sz.
  pose proof (room_fits p (13 + 2 * len text) s ltac:(eapply no_wrap_le; [exact NW|lia]) ltac:(lia)) as R.
  apply sound_bind_at; [intros w E; now rewrite E in R|]. intros o s1 w E3. rewrite E3 in R. destruct R as [F _]. revert F. apply not_ub with (Q := fun _ _ => True).
  eapply hoare_bind; [apply fits_flag; lia|intro]. eapply hoare_bind; [apply fits_vm, sound_named|intro u].
  eapply hoare_bind; [apply fits_vm, sound_id_of|intro id]. eapply hoare_bind; [apply fits_store; rewrite len_le_enc_N; change (N.of_nat 4) with 4; lia|intro].
  eapply hoare_bind; [apply fits_store; rewrite len_le_enc_N; change (N.of_nat 8) with 8; lia|intro].
  eapply hoare_bind; [apply fits_store; rewrite len_units; lia|intro]. now apply hoare_ret.
Qed.

(** ** Numbers in memory *)

Lemma held_as_inv s q t : forall l h s',
  (forall h pt, In (h, pt) l -> exists v nm, type_name_of v = Some nm /\ is_named (c_types s) (pt q) nm /\ width_of v = Some (held_size h)) ->
  held_as l q t s = Ok (Some h) s' ->
  s' = s /\ exists v nm, type_name_of v = Some nm /\ is_named (c_types s) t nm /\ width_of v = Some (held_size h).
Proof.
  induction l as [|[h0 pt] l IH]; intros h s' H E; [discriminate|]. cbn [held_as] in E.
  destruct (H h0 pt (or_introl eq_refl)) as (v & nm & T & (ui & Eu & Nu) & Wd).
  unfold bind at 1, type_eq, bind, the_type in E. destruct (nth_error (c_types s) t) as [ti|] eqn:Et; [|discriminate]. rewrite Eu in E.
  cbv beta iota delta [ret] in E. destruct (bytes_eqb (ti_full_name ti) (ti_full_name ui)) eqn:Q.
  - injection E as <- <-. split; [reflexivity|]. exists v, nm. split; [exact T|]. split; [|exact Wd]. exists ti. split; [exact Et|].
    apply bytes_eqb_spec in Q. congruence.
  - apply IH in E; [exact E|]. intros h1 pt1 Hi. apply H. now right.
Qed.
Lemma held_inv s q t h s' : started s -> c_primitives s = Some q -> held_as primitive_order q t s = Ok (Some h) s' ->
  s' = s /\ exists v nm, type_name_of v = Some nm /\ is_named (c_types s) t nm /\ width_of v = Some (held_size h).
Proof.
  intros S Q. destruct (started_q _ S) as (q' & Q' & N). assert (q' = q) as -> by congruence. clear Q'.
  apply held_as_inv. intros h0 pt Hi. unfold primitive_order in Hi. cbn [In] in Hi.
  assert (G : exists v nm, type_name_of v = Some nm /\ In (nm, pt q)
    [(bytes_of_string "System.SByte", pt_sbyte q); (bytes_of_string "System.Byte", pt_byte q);
               (bytes_of_string "System.Int16", pt_short q); (bytes_of_string "System.UInt16", pt_ushort q);
               (bytes_of_string "System.Int32", pt_int q); (bytes_of_string "System.UInt32", pt_uint q);
               (bytes_of_string "System.Int64", pt_long q); (bytes_of_string "System.UInt64", pt_ulong q);
               (bytes_of_string "System.Single", pt_float q); (bytes_of_string "System.Double", pt_double q);
               (bytes_of_string "System.Object", pt_object q)] /\ width_of v = Some (held_size h0)).
  { destruct Hi as [E|[E|[E|[E|[E|[E|[E|[E|[E|[E|[]]]]]]]]]]]; injection E as <- <-;
      [exists (VInt I8 0)|exists (VInt U8 0)|exists (VInt I16 0)|exists (VInt U16 0)|exists (VInt I32 0)|exists (VInt U32 0)
      |exists (VInt I64 0)|exists (VInt U64 0)|exists (VF32 0)|exists (VF64 0)];
      eexists; (split; [reflexivity|]); (split; [cbn [In]; auto 12|reflexivity]). }
  destruct G as (v & nm & T & Hin & Wd). exists v, nm. auto.
Qed.
Lemma held_bytes_width v h bs : held_bytes v = Some (h, bs) -> width_of v = Some (len bs).
Proof.
  destruct v as [t x|b|b|o]; cbn; intro E; try discriminate; injection E as <- <-.
  - rewrite len_le_enc_N. destruct t; reflexivity.
  - reflexivity.
  - reflexivity.
Qed.

Lemma cut3 {A} (l : list A) a k : a + k <= len l -> exists x y z, l = x ++ y ++ z /\ len x = a /\ len y = k.
Proof.
  intro L. exists (firstn (N.to_nat a) l), (firstn (N.to_nat k) (skipn (N.to_nat a) l)), (skipn (N.to_nat k) (skipn (N.to_nat a) l)).
  rewrite !firstn_skipn. split; [reflexivity|]. unfold len in *. rewrite !firstn_length, skipn_length. lia.
Qed.

(** ** Instructions that use the heap *)

Ltac objs := unfold values; repeat progress (cbn; rewrite ?in_app_iff); tauto.

Section HeapInstructions.
  Context {old : snapshot}.
  Variables (p : profile).
  Definition Here (ex : list value) (s : machine) : Prop :=
    After p ex s /\ len (memory s) <= 1024 /\ len (c_types (x_vm s)) <= 2 ^ 32.
  Definition fine (ex : list value) (r : res machine outcome) : Prop :=
    match r with Ok o s' => Post p ex o s' | Ub _ => False | _ => True end.

  Lemma here_less ex ex' s s' : After p ex s -> x_heap s' = x_heap s -> x_vm s' = x_vm s ->
    (forall o, In (VObject o) (ex' ++ values s') -> In (VObject o) (ex ++ values s)) -> After p ex' s'.
  Proof.
    intros [V H] Eh Ev X. split; [now rewrite Ev|]. eapply heap_same; eauto. now rewrite Ev.
  Qed.

  Lemma stored_at s o before b after : memory s = before ++ b ++ after -> o_off o = len before -> o_gen o = h_gen (x_heap s) -> stored s o 0 b.
  Proof. intros M O G. split; [exact G|]. exists before, after. split; [exact M|]. rewrite O. lia. Qed.
  Lemma flags_at s o f rest : stored s o 0 ([f] ++ rest) -> flags_of o s = Ok (le_dec [f]) s.
  Proof. intro S. unfold flags_of, bind. rewrite (load_stored _ _ _ 1 [f]); [reflexivity| |reflexivity]. exact (stored_first _ _ _ _ _ S). Qed.

  Lemma cut b n fr s : instruction fr [b] -> In ([b], N.of_nat n) operand_sizes -> ~ hazard p (InFrame fr s) ->
    whole (set_ip fr (fr_ip fr + 1)) (N.of_nat n).
  Proof.
    intros I Hi Nh. unfold whole. cbn [fr_ip fr_code set_ip].
    destruct (N.le_gt_cases (fr_ip fr + 1 + N.of_nat n) (len (fr_code fr))) as [X|X]; [exact X|].
    exfalso. apply Nh. eapply operand_cut_off with (op := [b]); [exact I|exact Hi|exact X].
  Qed.
  (** An operand that is a token. *)
  Lemma res_then {A} (m : M vm (option A)) ex s (k : A -> M machine outcome) : sound m -> pure m ->
    (forall x, m (x_vm s) = Ok (Some x) (x_vm s) -> fine ex (k x s)) -> fine ex ((o <- on_vm m ;; x <- unwrap o ;; k x) s).
  Proof.
    intros U Pu K. unfold bind at 1, on_vm at 1. specialize (U (x_vm s)). specialize (Pu (x_vm s)).
    destruct (m (x_vm s)) as [o v|e v|w|w|]; try exact I; [|now apply (U w)]. subst v.
    replace (set_vm s (x_vm s)) with s by (destruct s; reflexivity). destruct o as [x|]; [now apply K|exact I].
  Qed.
  Lemma token_then (b : byte) ex fr s (k : N * frame -> M machine outcome) :
    instruction fr [b] -> In ([b], N.of_nat 4) operand_sizes -> ~ hazard p (InFrame fr s) ->
    (forall bs, instruction fr (b :: bs) -> List.length bs = 4%nat -> fine ex (k (Z.to_N (number bs), set_ip fr (fr_ip fr + 1 + 4)) s)) ->
    fine ex (bind (il_get (set_ip fr (fr_ip fr + 1)) 4) k s).
  Proof.
    intros I Hi Nh K. pose proof (cut b 4 fr s I Hi Nh) as Wh.
    destruct (token_here fr b 4 s I Wh) as (bs & Ib & Lb & Eg). change (N.of_nat 4) with 4 in Eg. unfold bind at 1. rewrite Eg. now apply K.
  Qed.

  Lemma pop_then ex s (k : value -> M machine outcome) : (forall v l, x_operands s = v :: l -> fine ex (k v (set_operands s l))) -> fine ex (bind pop k s).
  Proof. intro K. unfold bind, pop, bind, try_pop. destruct (x_operands s) as [|v l] eqn:E; [exact I|]. now apply K. Qed.

  Lemma h_stfld ex fr s : Here ex s -> instruction fr [x7d] -> ~ hazard p (InFrame fr s) ->
    fine ex (stfld p (set_ip fr (fr_ip fr + 1)) s).
  Proof.
    intros ([[[W S] V] H] & Lm & Lt) I Nh. unfold stfld. apply (token_then x7d); [exact I|vm_compute; tauto|exact Nh|].
    intros bs Ib Lb. cbv beta iota. cbn [fr_assembly set_ip]. apply res_then; [apply sound_resolve_field|apply pure_resolve_field|].
    intros f Er. apply resolve_field_inv in Er; [|exact V|now apply number_bound].
    apply pop_then. intros v l1 E1. apply pop_then. intros o rest E2. cbn [x_operands set_operands] in E2. subst l1. rename E1 into Eo.
    destruct o as [| | |o]; try exact Logic.I.
    unfold set_field, bind, raw_object, bind. set (s0 := set_operands (set_operands s (VObject o :: rest)) rest).
    assert (Ho : In (VObject o) (ex ++ values s)) by (unfold values; rewrite Eo; rewrite !in_app_iff; cbn; auto).
    destruct (heap_at _ _ _ H Lm Ho) as (before & b & after & M & O & G & Sh & K).
    pose proof (stored_at s o _ _ _ M O G) as St.
    assert (St0 : stored s0 o 0 b) by exact St.
    destruct Sh as [t ti n id fields E Id Sz Lf|t ti n length id eid l es Li E Id Sz El Lf|k id l cs Li El Lf];
      rewrite (flags_at _ _ _ _ St0); [|exact Logic.I|exact Logic.I].
    change (N.land (le_dec [x00]) (N.lor is_array is_string) =? 0) with true. unfold ret at 1. cbv iota.
    destruct (held_bytes v) as [[h vb]|] eqn:Hb; [|exact Logic.I]. pose proof (held_bytes_width _ _ _ Hb) as Wd.
    assert (Fit : f_offset f + len vb <= n).
    { apply N.nlt_ge. intro X. apply Nh. eapply stores_outside with (tok := bs); eauto.
      exists id, t, ti. split; [|auto]. rewrite app_assoc in St. exact (stored_first _ _ _ _ _ St). }
    destruct (cut3 fields (f_offset f) (len vb) ltac:(lia)) as (x & y & z & Ef & Lx & Ly).
    assert (Li : len id = 4) by (unfold len; now rewrite (proj1 Id)).
    rewrite (store_with s0 o _ vb (before ++ [x00] ++ id ++ x) y (z ++ after)).
    - cbn. split; [split; [split; assumption|exact V]|].
      apply heap_same with (ex := ex) (s := with_memory s (before ++ ([x00] ++ id ++ x ++ vb ++ z) ++ after)).
      + apply K.
        * apply aged_object; [exact Li|]. rewrite Ef, !len_app. lia.
        * apply object_shape with (t := t) (ti := ti) (n := n); auto. rewrite <- Lf, Ef, !len_app. lia.
      + cbn. f_equal. rewrite <- !app_assoc. cbn. now rewrite <- !app_assoc.
      + reflexivity.
      + intros o'. unfold values. cbn. rewrite Eo. rewrite !in_app_iff. cbn. tauto.
    - exact G.
    - unfold s0. unfold memory. cbn [x_heap set_operands]. unfold memory in M. rewrite M, Ef, <- !app_assoc. reflexivity.
    - rewrite !len_app, Li, Lx, O. change (len [x00]) with 1. unfold object_header. lia.
    - now rewrite Ly.
  Qed.

  Lemma h_ldfld ex fr s : Here ex s -> instruction fr [x7b] -> ~ hazard p (InFrame fr s) ->
    fine ex (ldfld p (set_ip fr (fr_ip fr + 1)) s).
  Proof.
    intros ([[[W S] V] H] & Lm & Lt) I Nh. unfold ldfld. apply (token_then x7b); [exact I|vm_compute; tauto|exact Nh|].
    intros bs Ib Lb. cbv beta iota. cbn [fr_assembly set_ip]. apply res_then; [apply sound_resolve_field|apply pure_resolve_field|].
    intros f Er. apply resolve_field_inv in Er; [|exact V|now apply number_bound].
    apply pop_then. intros o rest Eo. destruct o as [| | |o]; try exact Logic.I.
    unfold get_field_value, raw_object. set (s0 := set_operands s rest).
    assert (Ho : In (VObject o) (ex ++ values s)) by (unfold values; rewrite Eo; rewrite !in_app_iff; cbn; auto).
    destruct (heap_at _ _ _ H Lm Ho) as (before & b & after & M & O & G & Sh & _).
    pose proof (stored_at s o _ _ _ M O G) as St.
    assert (St0 : stored s0 o 0 b) by exact St.
    destruct Sh as [t ti n id fields E Id Sz Lf|t ti n length id eid l es Li E Id Sz El Lf|k id l cs Li El Lf];
      unfold bind at 1 2 3; rewrite (flags_at _ _ _ _ St0); [|exact Logic.I|exact Logic.I].
    change (N.land (le_dec [x00]) (N.lor is_array is_string) =? 0) with true. unfold ret at 1. cbv iota.
    destruct (started_q _ S) as (q & Q & _).
    unfold bind at 1. rewrite (on_vm_stays the_primitives s0 q) by (unfold the_primitives; cbn [s0 x_vm set_operands]; now rewrite Q).
    unfold bind at 1, on_vm. change (x_vm s0) with (x_vm s).
    pose proof (sound_held_as primitive_order q (f_type f) (x_vm s)) as U.
    destruct (held_as primitive_order q (f_type f) (x_vm s)) as [[h|] v1|e v1|w|w|] eqn:Eh; try exact Logic.I; [|now apply (U w)].
    destruct (held_inv _ _ _ _ _ S Q Eh) as (-> & v & nm & Tn & Nm & Wd). clear Eh.
    replace (set_vm s0 (x_vm s)) with s0 by reflexivity.
    assert (Fit : f_offset f + held_size h <= n).
    { apply N.nlt_ge. intro X. apply Nh. eapply loads_outside with (tok := bs); eauto.
      exists id, t, ti. split; [|auto]. rewrite app_assoc in St. exact (stored_first _ _ _ _ _ St). }
    destruct (cut3 fields (f_offset f) (held_size h) ltac:(lia)) as (x & y & z & Ef & Lx & Ly).
    assert (Li : len id = 4) by (unfold len; now rewrite (proj1 Id)).
    unfold bind at 1. rewrite (load_at s0 o _ _ (before ++ [x00] ++ id ++ x) y (z ++ after)).
    - destruct (held_value h y) as [u|] eqn:Hv; [|exact Logic.I].
      assert (Nu : number_value u) by (intros o'; destruct h; cbn in Hv; try discriminate Hv; injection Hv as <-; discriminate).
      cbn. split; [split; [split; assumption|exact V]|]. eapply heap_same; [exact H|reflexivity|reflexivity|].
      intros o'. unfold values. cbn. rewrite Eo, !in_app_iff. cbn. rewrite !in_app_iff. intros [X|[X|X]]; [|now destruct (Nu o' X)|]; tauto.
    - exact G.
    - unfold s0. unfold memory. cbn [x_heap set_operands]. unfold memory in M. rewrite M, Ef, <- !app_assoc. reflexivity.
    - rewrite !len_app, Li, Lx, O. change (len [x00]) with 1. unfold object_header. lia.
    - exact Ly.
  Qed.

  (** *** Arrays *)

  Lemma i32_slice_run s o id eid l es t ti n length : ready p (x_vm s) -> len (c_types (x_vm s)) <= 2 ^ 32 ->
    stored s o 0 ([x02] ++ id ++ eid ++ l ++ es) -> List.length id = 4%nat -> nth_error (c_types (x_vm s)) t = Some ti ->
    encodes 4 (ti_id ti) eid -> size (c_types (x_vm s)) t n -> encodes 8 length l -> len es = n * length ->
    match i32_slice o s with Ok k s' => s' = s /\ k = length /\ n = 4 | Ub _ => False | _ => True end.
  Proof.
    intros [W S] Lt St Li E [Le Ie] Sz [Ll Il] Ls. destruct (started_q _ S) as (q & Q & Nq).
    rewrite number_le_dec in Ie, Il. apply N2Z.inj in Ie, Il.
    assert (LI : len id = 4) by (unfold len; now rewrite Li). assert (LE : len eid = 4) by (unfold len; now rewrite Le).
    assert (LL : len l = 8) by (unfold len; now rewrite Ll).
    unfold i32_slice, array_slice. unfold bind at 1, bind at 1.
    rewrite (on_vm_stays the_primitives s q) by (unfold the_primitives; now rewrite Q).
    cbn [managed_type]. unfold bind at 1, on_vm at 1. destruct (Nq int_type (pt_int q)) as (ii & Ei & Ni); [cbn [In]; unfold int_type; auto 12|].
    unfold id_of, bind at 1, the_type. rewrite Ei. unfold ret at 1. replace (set_vm s (x_vm s)) with s by (destruct s; reflexivity).
    unfold bind at 1. rewrite (load_stored _ _ 5 4 eid); [|change 5 with (0 + len (x02 :: id)) || replace 5 with (0 + len ([x02] ++ id)) by (rewrite len_app, LI; reflexivity);
      rewrite app_assoc in St; exact (stored_part _ _ _ _ _ _ St)|exact LE].
    rewrite Ie. destruct (N.eqb_spec (ti_id ti) (ti_id ii)) as [Q'|_].
    - assert (n = 4) as ->.
      { rewrite (ids_ok _ _ W _ _ E), (ids_ok _ _ W _ _ Ei) in Q'. pose proof (nth_lt _ _ _ E) as L1. pose proof (nth_lt _ _ _ Ei) as L2.
        unfold len in Lt. rewrite !N.mod_small in Q' by lia. assert (t = pt_int q) as -> by lia.
        apply (size_unique _ _ _ _ Sz). apply size_primitive. apply (number_width _ _ (VInt I32 0) int_type); [reflexivity|]. exists ii. auto. }
      assert (S9 : stored s o 9 l).
      { replace 9 with (0 + len ([x02] ++ id ++ eid)) by (rewrite !len_app, LI, LE; reflexivity).
        apply (stored_part s o 0 ([x02] ++ id ++ eid) l es). rewrite <- !app_assoc. exact St. }
      assert (S17 : stored s o 17 es).
      { replace 17 with (0 + len ([x02] ++ id ++ eid ++ l)) by (rewrite !len_app, LI, LE, LL; reflexivity).
        apply (stored_last s o 0 ([x02] ++ id ++ eid ++ l) es). rewrite <- !app_assoc. exact St. }
      unfold bind at 1. rewrite (load_stored _ _ 9 8 l S9 LL). unfold bind at 1. rewrite Il. unfold array_header.
      rewrite (load_stored _ _ 17 _ es S17); [|rewrite Ls; change (held_size (HInt I32)) with 4; lia]. cbn. auto.
    - cbn. unfold bind at 1, type_of, bind at 1. rewrite (load_stored _ _ 1 4 id); [|exact (stored_part s o 0 [x02] id _ St)|exact LI].
      destruct (_ <? _); [|exact I]. unfold bind at 1, on_vm. pose proof (sound_named "System.Int32[]" (x_vm s)) as U.
      destruct (named "System.Int32[]" (x_vm s)) as [? ?|? ?|w|w|]; try exact I. now apply (U w).
  Qed.
  Lemma pop_i32_then ex s (k : Z -> M machine outcome) : (forall x l, x_operands s = VInt I32 x :: l -> fine ex (k x (set_operands s l))) -> fine ex (bind pop_i32 k s).
  Proof.
    intro K. unfold bind, pop_i32, bind, pop, bind, try_pop. destruct (x_operands s) as [|v l] eqn:E; [exact I|].
    destruct v as [[]| | |]; try exact I. now apply K.
  Qed.
  (** The array on top, and its length. *)
  Lemma array_then ex s (k : obj -> N -> M machine outcome) : Here ex s ->
    (forall o rest before id eid l es after t ti length, x_operands s = VObject o :: rest ->
       memory s = before ++ ([x02] ++ id ++ eid ++ l ++ es) ++ after -> o_off o = len before -> o_gen o = h_gen (x_heap s) ->
       (forall es', len es' = len es -> Heap ex (with_memory s (before ++ ([x02] ++ id ++ eid ++ l ++ es') ++ after))) ->
       len id = 4 -> len eid = 4 -> len l = 8 -> nth_error (c_types (x_vm s)) t = Some ti -> len es = 4 * length ->
       fine ex (k o length (set_operands s rest))) ->
    fine ex ((o <- pop_array ;; n <- i32_slice o ;; k o n) s).
  Proof.
    intros ([[[W S] V] H] & Lm & Lt) K. unfold bind at 1, pop_array, bind at 1, pop, bind at 1, try_pop.
    destruct (x_operands s) as [|v rest] eqn:Eo; [exact I|]. destruct v as [| | |o]; try exact I. cbv beta iota delta [unwrap ret].
    assert (Ho : In (VObject o) (ex ++ values s)) by (unfold values; rewrite Eo; rewrite !in_app_iff; cbn; auto).
    destruct (heap_at _ _ _ H Lm Ho) as (before & b & after & M & O & G & Sh & Kb).
    pose proof (stored_at s o _ _ _ M O G) as St.
    assert (St0 : stored (set_operands s rest) o 0 b) by exact St.
    unfold as_array, bind at 1, bind at 1.
    destruct Sh as [t ti n id fields E Id Sz Lf|t ti n length id eid l es Li E Id Sz El Lf|k0 id l cs Li El Lf];
      rewrite (flags_at _ _ _ _ St0); [exact I| |exact I].
    change (has (le_dec [x02]) is_array) with true. cbv beta iota delta [ret].
    pose proof (i32_slice_run (set_operands s rest) o id eid l es t ti n length (conj W S) Lt St0 Li E Id Sz El Lf) as R.
    unfold bind. destruct (i32_slice o (set_operands s rest)) as [k1 s1|e s1|w|w|]; try exact I; [|exact R].
    destruct R as (-> & -> & ->).
    assert (Lid : len id = 4) by (unfold len; now rewrite Li). assert (Leid : len eid = 4) by (unfold len; now rewrite (proj1 Id)).
    assert (Ll : len l = 8) by (unfold len; now rewrite (proj1 El)).
    eapply K; eauto. intros es' Les. apply Kb.
    { replace ([x02] ++ id ++ eid ++ l ++ es) with ([x02] ++ (id ++ eid ++ l) ++ es) by (rewrite <- !app_assoc; reflexivity).
      replace ([x02] ++ id ++ eid ++ l ++ es') with ([x02] ++ (id ++ eid ++ l) ++ es') by (rewrite <- !app_assoc; reflexivity).
      apply aged_array; [rewrite !len_app; lia|exact Les]. }
    apply array_shape with (t := t) (ti := ti) (n := 4) (length := length); auto. congruence.
  Qed.
  Lemma h_ldelem ex fr s : Here ex s -> fine ex (ldelem_i4 fr s).
  Proof.
    intros Hh. unfold ldelem_i4. apply pop_i32_then. intros i l1 E1.
    assert (Hh1 : Here ex (set_operands s l1)).
    { destruct Hh as (A & B & C). split; [|auto]. eapply here_less; [exact A|reflexivity|reflexivity|].
      intro o. unfold values. cbn. rewrite E1, !in_app_iff. cbn. tauto. }
    apply array_then; [exact Hh1|]. intros o rest before id eid l es after t ti length E2 M O G K Lid Leid Ll E Les. cbn [x_operands set_operands] in E2. subst l1.
    unfold bind at 1, slice_get. destruct (N.ltb_spec (to_unsigned 64 i) length) as [Li|_]; [|exact I].
    destruct (cut3 es (to_unsigned 64 i * 4) 4 ltac:(lia)) as (x & y & z & Ees & Lx & Ly).
    rewrite (load_at _ o _ _ (before ++ [x02] ++ id ++ eid ++ l ++ x) y (z ++ after)).
    - cbn. destruct Hh1 as ((V & H) & _ & _). split; [exact V|]. eapply heap_same; [exact H|reflexivity|reflexivity|].
      intro o'. unfold values. cbn. rewrite !in_app_iff. cbn. intuition discriminate.
    - exact G.
    - change (memory s = before ++ ([x02] ++ id ++ eid ++ l ++ es) ++ after) in M. change (memory s = (before ++ [x02] ++ id ++ eid ++ l ++ x) ++ y ++ z ++ after).
      rewrite M, Ees, <- !app_assoc. reflexivity.
    - rewrite !len_app, Lid, Leid, Ll, Lx, O. change (len [x02]) with 1. change (held_size (HInt I32)) with 4. unfold array_header. lia.
    - exact Ly.
  Qed.
  Lemma h_stelem ex fr s : Here ex s -> fine ex (stelem_i4 fr s).
  Proof.
    intros Hh. unfold stelem_i4. apply pop_i32_then. intros v l0 E0. apply pop_i32_then. intros i l1 E1. cbn [x_operands set_operands] in E1. subst l0.
    change (set_operands (set_operands s (VInt I32 i :: l1)) l1) with (set_operands s l1).
    assert (Hh1 : Here ex (set_operands s l1)).
    { destruct Hh as (A & B & C). split; [|auto]. eapply here_less; [exact A|reflexivity|reflexivity|].
      intro o. unfold values. cbn. rewrite E0, !in_app_iff. cbn. tauto. }
    apply array_then; [exact Hh1|]. intros o rest before id eid l es after t ti length E2 M O G K Lid Leid Ll E Les. cbn [x_operands set_operands] in E2. subst l1.
    unfold bind at 1, slice_set. destruct (N.ltb_spec (to_unsigned 64 i) length) as [Li|_]; [|exact I].
    destruct (cut3 es (to_unsigned 64 i * 4) 4 ltac:(lia)) as (x & y & z & Ees & Lx & Ly).
    set (vb := le_enc 4 (to_unsigned 32 v)). assert (Lv : len vb = 4) by apply len_le_enc_N. clearbody vb.
    rewrite (store_with _ o _ vb (before ++ [x02] ++ id ++ eid ++ l ++ x) y (z ++ after)).
    - destruct Hh1 as ((V & _) & _ & _). split; [exact V|].
      eapply heap_same; [exact (K (x ++ vb ++ z) ltac:(rewrite Ees, !len_app; lia))| |reflexivity|].
      + cbn. f_equal. rewrite <- !app_assoc. cbn. now rewrite <- !app_assoc.
      + intro o'. objs.
    - exact G.
    - change (memory s = before ++ ([x02] ++ id ++ eid ++ l ++ es) ++ after) in M. change (memory s = (before ++ [x02] ++ id ++ eid ++ l ++ x) ++ y ++ z ++ after).
      rewrite M, Ees, <- !app_assoc. reflexivity.
    - rewrite !len_app, Lid, Leid, Ll, Lx, O. change (len [x02]) with 1. change (held_size (HInt I32)) with 4. unfold array_header. lia.
    - congruence.
  Qed.

  (** *** Allocations *)

  Lemma vectors_appends s s' : vectors s -> appends s s' -> vectors s'.
  Proof. intros V A a ai E. rewrite (ap_arena _ _ A) in E. exact (V _ _ E). Qed.
  Lemma after_granted ex s r o s' : After p ex s -> granted p s r o s' ->
    (forall bs, block (c_types (x_vm s')) r bs -> no_wrap p (len (memory s) + len bs)) -> After p (VObject o :: ex) s'.
  Proof.
    intros [[R V] H] Gr NW. pose proof R as [W S]. destruct (granted_ok _ _ _ _ _ W Gr) as (W' & A & bs & B & Al).
    split; [split; [exact (granted_ready _ _ _ _ _ R Gr)|exact (vectors_appends _ _ V A)]|].
    specialize (Al (NW _ B)). exact (heap_allocated _ _ _ _ _ _ W H Al (block_shape _ _ _ B) (ap_types _ _ A)).
  Qed.
  Lemma size_back s s' t n m : consistent p s -> appends s s' -> size (c_types s) t n -> size (c_types s') t m -> m = n.
  Proof. intros W A S S'. destruct (ap_types _ _ A) as [l E]. rewrite E in S'. apply (size_unique _ _ _ _ S'). now apply (size_appends p). Qed.
  Lemma h_newarr f ex fr s : Here ex s -> instruction fr [x8d] -> ~ hazard p (InFrame fr s) ->
    fine ex (newarr f p (set_ip fr (fr_ip fr + 1)) s).
  Proof.
    intros (A & Lm & Lt) I Nh. pose proof A as [[[W S] V] H]. unfold newarr. apply (token_then x8d); [exact I|vm_compute; tauto|exact Nh|].
    intros bs Ib Lb. cbv beta iota. cbn [fr_assembly set_ip]. apply res_then; [apply sound_resolve_type|apply pure_resolve_type|].
    intros t Er. apply resolve_type_inv in Er; [|exact V|now apply number_bound].
    apply pop_i32_then. intros k rest Eo. set (s0 := set_operands s rest).
    assert (NW : forall n, size (c_types (x_vm s)) t n -> no_wrap p (len (memory s) + 17 + n * to_unsigned 64 k)).
    { intros n Sz P. apply N.nle_gt. intro X. apply Nh. eapply array_too_large with (tok := bs); eauto. }
    assert (A0 : After p ex s0).
    { eapply here_less; [exact A|reflexivity|reflexivity|]. intro o. unfold values. cbn. rewrite Eo, !in_app_iff. cbn. tauto. }
    assert (Lk : to_unsigned 64 k < 2 ^ 64) by (unfold to_unsigned; change (2 ^ 64) with (Z.to_N (2 ^ 64)); apply Z2N.inj_lt; [apply Z.mod_pos_bound; reflexivity|discriminate|apply Z.mod_pos_bound; reflexivity]).
    unfold bind at 1. pose proof (alloc_array_sound f p t (to_unsigned 64 k) s0 W NW) as U.
    destruct (alloc_array f p t (to_unsigned 64 k) s0) as [o s1|e s1|w|w|] eqn:Ea; try exact Logic.I; [|now apply (U w)].
    pose proof (array_granted p s0 f t _ o s1 Lk Ea) as Gr. destruct (granted_ok p s0 _ _ _ W Gr) as (W' & Ap & _).
    assert (A1 : After p (VObject o :: ex) s1).
    { apply (after_granted _ _ _ _ _ A0 Gr). intros b B. inversion B as [|t' ti u ui n length id eid l Eu [L1 _] Lu E [L2 _] Sz [L3 _] X Y|]; subst.
      unfold alloc_array in Ea. apply bind_inv_ok in Ea as (n1 & s2 & E1 & _). apply on_vm_pure in E1 as [_ E1]; [|apply pure_type_size].
      destruct (type_size_run p (x_vm s) W _ _ _ _ E1) as (_ & m & Sm & _). rewrite (size_back (x_vm s) _ _ _ _ W Ap Sm Sz).
      eapply no_wrap_le; [exact (NW _ Sm)|]. rewrite !len_app. unfold len at 3 4 5. rewrite L1, L2, L3. unfold zeros. rewrite len_zeros.
      change (len [x02]) with 1. change (memory s0) with (memory s). lia. }
    eapply here_less; [exact A1|reflexivity|reflexivity|]. intro o'. cbn [out app]. objs.
  Qed.
  Lemma h_newobj f ex fr s : Here ex s -> instruction fr [x73] -> ~ hazard p (InFrame fr s) ->
    fine ex (newobj f p (set_ip fr (fr_ip fr + 1)) s).
  Proof.
    intros (A & Lm & Lt) I Nh. pose proof A as [[[W S] V] H]. unfold newobj. apply (token_then x73); [exact I|vm_compute; tauto|exact Nh|].
    intros bs Ib Lb. cbv beta iota. cbn [fr_assembly set_ip]. apply res_then; [apply sound_resolve_method|apply pure_resolve_method|].
    intros m Er. apply resolve_method_inv in Er; [|exact V|now apply number_bound].
    assert (NW : forall n, size (c_types (x_vm s)) (mt_declaring m) n -> no_wrap p (len (memory s) + 5 + n)).
    { intros n Sz P. apply N.nle_gt. intro X. apply Nh. eapply object_too_large with (tok := bs); eauto. }
    unfold bind at 1. pose proof (alloc_sound f p (mt_declaring m) s W NW) as U.
    destruct (alloc f p (mt_declaring m) s) as [o s1|e s1|w|w|] eqn:Ea; try exact Logic.I; [|now apply (U w)].
    pose proof (object_granted p s f _ o s1 Ea) as Gr.
    assert (A1 : After p (VObject o :: ex) s1).
    { apply (after_granted _ _ _ _ _ A Gr). intros b B. destruct (alloc_ok _ _ _ _ _ _ W Ea) as (_ & _ & Ev & _).
      inversion B as [t ti n id E [L1 _] Sz X Y| |]; subst. rewrite Ev in Sz.
      eapply no_wrap_le; [exact (NW _ Sz)|]. rewrite !len_app. unfold len at 3. rewrite L1. unfold zeros. rewrite len_zeros.
      change (len [x00]) with 1. lia. }
    unfold bind at 1. destruct (Nat.leb_spec (List.length (mt_params m)) (List.length (x_operands s1))) as [_|_]; [|exact Logic.I].
    apply (h_method_call p ex). eapply here_less; [exact A1|reflexivity|reflexivity|]. intro o'.
    unfold values. cbn [x_operands set_operands x_frames x_host app In]. rewrite <- (firstn_skipn (List.length (mt_params m)) (x_operands s1)) at 3.
    objs.
  Qed.
  Lemma h_ldstr ex fr s : Here ex s -> instruction fr [x72] -> ~ hazard p (InFrame fr s) ->
    fine ex (ldstr p (set_ip fr (fr_ip fr + 1)) s).
  Proof.
    intros (A & Lm & Lt) I Nh. pose proof A as [[[W S] V] H]. unfold ldstr. apply (token_then x72); [exact I|vm_compute; tauto|exact Nh|].
    intros bs Ib Lb. cbv beta iota. cbn [fr_assembly set_ip]. unfold bind at 1, on_vm.
    pose proof (get_string_safe p (fr_assembly fr) (Z.to_N (number bs)) (x_vm s) V) as G.
    pose proof (pure_get_string p (fr_assembly fr) (Z.to_N (number bs)) (x_vm s)) as Pu.
    destruct (get_string p (fr_assembly fr) (Z.to_N (number bs)) (x_vm s)) as [[text|] v|e v|w|w|]; try exact Logic.I; [|exact G].
    subst v. destruct G as [Un Ln]. replace (set_vm s (x_vm s)) with s by (destruct s; reflexivity).
    assert (NW : no_wrap p (len (memory s) + 13 + 2 * len text)) by (intros _; assert (2 ^ 30 * 2 + 2000 < 2 ^ 64) by (vm_compute; reflexivity); lia).
    unfold bind at 1. pose proof (alloc_string_sound p text s NW) as U.
    destruct (alloc_string p text s) as [o s1|e s1|w|w|] eqn:Ea; try exact Logic.I; [|now apply (U w)].
    assert (Lt64 : len text < 2 ^ 64) by (assert (2 ^ 30 < 2 ^ 64) by (vm_compute; reflexivity); lia).
    pose proof (string_granted p s text o s1 Un Lt64 Ea) as Gr.
    assert (A1 : After p (VObject o :: ex) s1).
    { apply (after_granted _ _ _ _ _ A Gr). intros b B. inversion B as [| |u ui text' id l cs Eu [L1 _] Lu [L2 _] Cs X Y]; subst.
      eapply no_wrap_le; [exact NW|]. rewrite !len_app, (len_encoded _ _ Cs). unfold len at 3 4. rewrite L1, L2. change (len [x04]) with 1. lia. }
    eapply here_less; [exact A1|reflexivity|reflexivity|]. intro o'. cbn [out app]. objs.
  Qed.

  (** *** Equality *)

  Lemma eq_run ex s a b l : Here ex s -> x_operands s = b :: a :: l -> forall s0 : machine, exists t, eq_test a b s0 = Ok t s0.
  Proof.
    intros ((_ & H) & Lm & _) Eo s0. unfold eq_test. destruct b as [t x|x|x|o], a as [u y|y|y|o']; cbn; eauto.
    destruct (H Lm) as (_ & _ & bl & _ & _ & Pt & _).
    destruct (Pt o) as (-> & _); [unfold values; rewrite Eo, !in_app_iff; cbn; auto|].
    destruct (Pt o') as (-> & _); [unfold values; rewrite Eo, !in_app_iff; cbn; auto|]. cbn. eauto.
  Qed.
  Lemma h_ceq ex fr s : Here ex s -> fine ex (compare fr eq_test s).
  Proof.
    intro Hh. unfold compare. apply pop_then. intros b l1 E1. apply pop_then. intros a l E2. cbn [x_operands set_operands] in E2. subst l1.
    unfold bind at 1. destruct (eq_run _ _ _ _ _ Hh E1 (set_operands (set_operands s (a :: l)) l)) as [t ->]. cbn.
    eapply here_less; [exact (proj1 Hh)|reflexivity|reflexivity|]. intro o. unfold values. rewrite E1.
    repeat progress (cbn; rewrite ?in_app_iff). intuition discriminate.
  Qed.
  Lemma h_beq n ex fr s : whole fr n -> Here ex s -> fine ex (br_cmp n fr eq_test s).
  Proof.
    intros Wh Hh. unfold br_cmp. apply pop_then. intros b l1 E1. apply pop_then. intros a l E2. cbn [x_operands set_operands] in E2. subst l1.
    unfold bind at 1, il_signed, bind at 1, il_get. destruct (N.leb_spec (fr_ip fr + n) (len (fr_code fr))); [|unfold whole in Wh; lia].
    cbv beta iota delta [ret].
    unfold bind at 1. destruct (eq_run _ _ _ _ _ Hh E1 (set_operands (set_operands s (a :: l)) l)) as [t ->]. cbn.
    eapply here_less; [exact (proj1 Hh)|reflexivity|reflexivity|]. intro o. unfold values. rewrite E1.
    repeat progress (cbn; rewrite ?in_app_iff). intuition discriminate.
  Qed.
End HeapInstructions.

(** ** One instruction *)

Section Steps.
  Context {old : snapshot}.
  Variable p : profile.
  Lemma no_hazard_here ex fr s : After p ex s -> ~ hazard p (InFrame fr s) -> Here p ex s.
  Proof.
    intros A Nh. split; [exact A|]. split; apply N.nlt_ge; intro X; apply Nh; [now apply heap_outgrown|now apply types_outnumber].
  Qed.
  Lemma cut_op op n fr s : instruction fr (opcode_bytes op) -> ~ hazard p (InFrame fr s) -> In (opcode_bytes op, n) operand_sizes ->
    whole (set_ip fr (fr_ip fr + len (opcode_bytes op))) n.
  Proof.
    intros I Nh Hi. unfold whole. cbn [fr_ip fr_code set_ip].
    destruct (N.le_gt_cases (fr_ip fr + len (opcode_bytes op) + n) (len (fr_code fr))) as [X|X]; [exact X|].
    exfalso. apply Nh. eapply operand_cut_off; eauto.
  Qed.
  Lemma exec_safe f op ex fr s : Inv p (fr_locals fr) (fr_params fr) ex s -> ~ hazard p (InFrame fr s) ->
    instruction fr (opcode_bytes op) ->
    fine p ex (exec_op f p op (set_ip fr (fr_ip fr + len (opcode_bytes op))) s).
  Proof.
    intros Hi Nh I. assert (Hh : Here p ex s) by (apply (no_hazard_here ex fr); [destruct Hi as (A & B & _); now split|exact Nh]).
    pose proof (cut_op op) as C. specialize (fun n => C n fr s I Nh).
    assert (G : forall m, hoare (Inv p (fr_locals fr) (fr_params fr) ex) m (Post p ex) -> fine p ex (m s)) by (intros m Hm; exact (Hm s Hi)).
    destruct op;
    match goal with |- context [opcode_bytes ?o] => let b := eval vm_compute in (opcode_bytes o) in change (opcode_bytes o) with b in * end;
    match goal with |- context [len ?b] => let n := eval vm_compute in (len b) in change (len b) with n in * end;
    unfold exec_op; cbv zeta; cbn match; cbn [fr_locals fr_params set_ip];
    lazymatch goal with
    | |- fine _ _ (fail _ _) => exact Logic.I
    | |- fine _ _ (next _ _) => apply G, h_next
    | |- fine _ _ (ret_op _ _) => apply G, h_ret
    | |- fine _ _ (ldc _ _ _) => apply G, h_ldc; discriminate
    | |- fine _ _ (ld _ _ _ _) => apply G, h_ld; auto
    | |- fine _ _ (st _ _ _ _) => apply G, h_st; auto
    | |- fine _ _ (ld_n _ _ _ _) => apply G, h_il_get; [apply C; vm_compute; tauto|intros; apply h_ld; auto]
    | |- fine _ _ (st_n _ _ _ _) => apply G, h_il_get; [apply C; vm_compute; tauto|intros; apply h_st; auto]
    | |- fine _ _ (br _ _ _) => apply G, h_il_signed; [apply C; vm_compute; tauto|intros; apply h_next]
    | |- fine _ _ (br_if _ _ _ _) => apply G, h_br_if; apply C; vm_compute; tauto
    | |- fine _ _ (newobj _ _ _ _) => apply h_newobj; assumption
    | |- fine _ _ (stfld _ _ _) => apply h_stfld; assumption
    | |- fine _ _ (ldfld _ _ _) => apply h_ldfld; assumption
    | |- fine _ _ (newarr _ _ _ _) => apply h_newarr; assumption
    | |- fine _ _ (stelem_i4 _ _) => apply h_stelem; assumption
    | |- fine _ _ (ldelem_i4 _ _) => apply h_ldelem; assumption
    | |- fine _ _ (ldstr _ _ _) => apply h_ldstr; assumption
    | |- fine _ _ (bind (il_signed _ _) _ _) => apply G, h_il_signed; [apply C; vm_compute; tauto|intros; apply h_ldc; discriminate]
    | |- fine _ _ (bind (il_get _ _) (fun '(x, f) => ldc _ _) _) => apply G, h_il_get; [apply C; vm_compute; tauto|intros; apply h_ldc; discriminate]
    | |- fine _ _ (bind (il_get _ _) _ _) =>
        apply G, h_il_get; [apply C; vm_compute; tauto|intros]; eapply hoare_pre; [|apply h_method_call]; intros s0 (A0 & B0 & _); now split
    | |- fine _ _ (br_cmp _ _ eq_test _) => apply h_beq; [apply C; vm_compute; tauto|exact Hh]
    | |- fine _ _ (compare _ eq_test _) => apply h_ceq; exact Hh
    | |- fine _ _ (br_cmp _ _ _ _) => apply G, h_br_cmp; [apply C; vm_compute; tauto|intros a b|intros a b]
    | |- fine _ _ (compare _ _ _) => apply G, h_compare; intros a b
    | |- fine _ _ (op2 _ _ _) => apply G, h_op2; intros a b
    | |- fine _ _ (op1 _ _ _) => apply G, h_op1; intros a
    | |- fine _ _ (bind peek_top _ _) => apply G; eapply hoare_bind; [apply h_peek|intro v; apply h_push_next]
    | |- fine _ _ (bind pop _ _) => apply G; eapply hoare_bind; [apply h_pop|intro v]; eapply hoare_pre; [|apply h_next];
        intros s0 H0; eapply inv_less; [exact H0|]; intros o Ho; now right
    | |- _ => idtac
    end;
    lazymatch goal with
    | |- calm (v_neg _ _) => apply calm_neg
    | |- calm (v_not _) => apply calm_not
    | |- calm _ => apply calm_binary; intros t x y; first [apply calm_arith|apply calm_div|apply calm_rem|apply calm_shift|apply calm_int]
    | |- pure (_ _ _) => apply pure_bind; [apply pure_v_cmp|intro; apply pure_ret]
    | |- sound (_ _ _) => apply sound_v_cmp
    | |- _ => idtac
    end.
  Qed.
  Lemma step_safe f ex fr s : Inv p (fr_locals fr) (fr_params fr) ex s -> ~ hazard p (InFrame fr s) -> fine p ex (step f p fr s).
  Proof.
    intros Hi Nh. unfold step, bind. pose proof (get_opcode_run fr s) as G.
    destruct (get_opcode fr s) as [[op fr1] s1|e s1|w|w|]; try exact I; [|exact G]. destruct G as (-> & Io & ->). now apply exec_safe.
  Qed.
End Steps.

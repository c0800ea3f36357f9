(** Facts about the heap. *)
From Coq Require Import NArith ZArith String List Bool Lia.
From Coq.Strings Require Import Byte.
From Verif Require Import Base BaseFacts Metadata Runtime Value Opcodes Gc Interp SpecExec SpecRuntime SpecTypes SpecHeap RuntimeInv InterpInv InterpFacts VmFacts StackFacts
  HistoryProofs PropsRegistry TypeFacts.
Import ListNotations.
Open Scope N_scope.

(** ** Reading and writing *)

Lemma skip_skip {A} a b (l : list A) : skipn a (skipn b l) = skipn (b + a) l.
Proof.
  revert l. induction b as [|b IH]; intro l; [reflexivity|]. destruct l; [now rewrite !skipn_nil|]. cbn. apply IH.
Qed.

Lemma splice_app before old after bs : len bs = len old -> splice (len before) bs (before ++ old ++ after) = before ++ bs ++ after.
Proof.
  intro L. unfold splice. f_equal; [|f_equal].
  - unfold len. rewrite Nat2N.id, firstn_app, Nat.sub_diag, firstn_all. cbn. apply app_nil_r.
  - rewrite L. rewrite app_assoc. replace (N.to_nat (len before + len old)) with (List.length (before ++ old))
      by (rewrite app_length; unfold len; lia).
    rewrite skipn_app, Nat.sub_diag, skipn_all. reflexivity.
Qed.

Lemma store_at s o d bs before old after : o_gen o = h_gen (x_heap s) -> memory s = before ++ old ++ after ->
  len before = o_off o + d -> len bs = len old ->
  store o d bs s = Ok tt (set_heap s (mkHeap (h_gen (x_heap s)) (h_cap (x_heap s)) (before ++ bs ++ after))).
Proof.
  intros G M B L. unfold store. rewrite G, Nat.eqb_refl. cbn [negb]. unfold memory in M. rewrite M, <- B.
  destruct (N.leb_spec (len before + len bs) (len (before ++ old ++ after))) as [_|X].
  - now rewrite splice_app.
  - rewrite !len_app in X. lia.
Qed.
Lemma load_at s o d n before bs after : o_gen o = h_gen (x_heap s) -> memory s = before ++ bs ++ after ->
  len before = o_off o + d -> len bs = n -> load o d n s = Ok bs s.
Proof.
  intros G M B L. unfold load. rewrite G, Nat.eqb_refl. cbn [negb]. unfold memory in M. rewrite M, <- B, <- L.
  destruct (N.leb_spec (len before + len bs) (len (before ++ bs ++ after))) as [_|X].
  - f_equal. apply sub_list_app.
  - rewrite !len_app in X. lia.
Qed.
Lemma load_stored s o d n bs : stored s o d bs -> len bs = n -> load o d n s = Ok bs s.
Proof. intros (G & before & after & M & B) L. eapply load_at; eauto. Qed.
Lemma load_inv s o d n bs s' : load o d n s = Ok bs s' -> s' = s /\ stored s o d bs /\ len bs = n.
Proof.
  unfold load. destruct (Nat.eqb_spec (o_gen o) (h_gen (x_heap s))) as [G|]; cbn [negb]; [|discriminate].
  destruct (N.leb_spec (o_off o + d + n) (len (h_mem (x_heap s)))) as [L|]; [|discriminate].
  intro E. injection E as <- <-. split; [reflexivity|].
  assert (LS : len (sub_list (o_off o + d) n (h_mem (x_heap s))) = n) by (now apply len_sub_list).
  split; [|exact LS]. split; [exact G|].
  exists (firstn (N.to_nat (o_off o + d)) (h_mem (x_heap s))), (skipn (N.to_nat (o_off o + d + n)) (h_mem (x_heap s))).
  split.
  - unfold memory, sub_list. rewrite <- (firstn_skipn (N.to_nat (o_off o + d)) (h_mem (x_heap s))) at 1. f_equal.
    rewrite <- (firstn_skipn (N.to_nat n) (skipn (N.to_nat (o_off o + d)) (h_mem (x_heap s)))) at 1. f_equal.
    rewrite skip_skip. f_equal. lia.
  - unfold len in *. rewrite firstn_length. lia.
Qed.

(** ** Numbers *)

Lemma encodes_le_enc n x : x < 256 ^ N.of_nat n -> encodes n x (le_enc n x).
Proof. intro H. split; [apply le_enc_length|]. rewrite number_le_dec, le_dec_enc by exact H. reflexivity. Qed.
Lemma encodes_eq n x bs : encodes n x bs -> bs = le_enc n x.
Proof.
  intros [L E]. rewrite number_le_dec in E. apply N2Z.inj in E. rewrite <- E, <- L. symmetry. apply le_enc_dec.
Qed.

(** ** Making room *)

Lemma len_zeros n : len (repeat x00 (N.to_nat n)) = n.
Proof. rewrite len_repeat. apply N2Nat.id. Qed.
Lemma zeros_app a b : repeat x00 (N.to_nat (a + b)) = repeat x00 (N.to_nat a) ++ repeat x00 (N.to_nat b).
Proof. rewrite <- repeat_app. f_equal. lia. Qed.

Lemma vec_reserve_run n s s' : vec_reserve n s = Ok tt s' ->
  s' = set_heap s (mkHeap (h_gen (x_heap s')) (h_cap (x_heap s')) (memory s)) /\
  (n <= h_cap (x_heap s) - len (memory s) -> h_gen (x_heap s') = h_gen (x_heap s) /\ h_cap (x_heap s') = h_cap (x_heap s)) /\
  (h_cap (x_heap s) - len (memory s) < n -> h_gen (x_heap s') = S (h_gen (x_heap s))) /\
  (h_gen (x_heap s) <= h_gen (x_heap s'))%nat.
Proof.
  unfold vec_reserve, memory. destruct (N.ltb_spec (h_cap (x_heap s) - len (h_mem (x_heap s))) n).
  - destruct (2 ^ 63 - 1 <? _); [discriminate|]. intro E. injection E as <-. cbn. repeat split; intros; lia.
  - intro E. injection E as <-. split; [destruct s as [? [? ? ?] ? ? ? ?]; reflexivity|]. repeat split; intros; lia.
Qed.

Lemma no_wrap_add p a b c : no_wrap p (a + b) -> u_add p 64 a b = Some c -> c = a + b.
Proof.
  unfold no_wrap, u_add. intros NW. destruct (N.ltb_spec (a + b) (2 ^ 64)).
  - intro X. now injection X as <-.
  - destruct p; [discriminate|]. specialize (NW eq_refl). lia.
Qed.

Lemma make_room_run p size s o s' : make_room p size s = Ok o s' -> no_wrap p (len (memory s) + size) -> 0 < size ->
  s' = set_heap s (mkHeap (h_gen (x_heap s')) (h_cap (x_heap s')) (memory s ++ repeat x00 (N.to_nat size))) /\
  o = mkObj (h_gen (x_heap s')) (len (memory s)) /\
  (len (memory s) + size <= h_cap (x_heap s) ->
     h_gen (x_heap s') = h_gen (x_heap s) /\ h_cap (x_heap s') = h_cap (x_heap s)) /\
  (h_cap (x_heap s) < len (memory s) + size -> (h_gen (x_heap s) < h_gen (x_heap s'))%nat).
Proof.
  intros E NW PS. unfold make_room, ensure_size in E.
  apply bind_inv_ok in E as ([] & s1 & E1 & E).
  apply bind_inv_ok in E1 as (h & s0 & E0 & E1). injection E0 as <- <-. change (h_mem (x_heap s)) with (memory s) in E1.
  apply bind_inv_ok in E1 as (a & s0 & E0 & E1).
  assert (a = len (memory s) + size /\ s0 = s) as [-> ->].
  { destruct (u_add p 64 (len (memory s)) size) as [c|] eqn:U; [|discriminate]. injection E0 as <- <-.
    split; [now apply (no_wrap_add p)|reflexivity]. }
  clear E0.
  assert (H1 : s1 = set_heap s (mkHeap (h_gen (x_heap s1)) (h_cap (x_heap s1)) (memory s)) /\
    (len (memory s) + size <= h_cap (x_heap s) -> s1 = s) /\ (h_gen (x_heap s) <= h_gen (x_heap s1))%nat /\
    (h_cap (x_heap s) < len (memory s) + size ->
      (h_gen (x_heap s) < h_gen (x_heap s1))%nat \/ (h_cap (x_heap s1) - len (memory s) < size))).
  { destruct (N.ltb_spec (h_cap (x_heap s)) (len (memory s) + size)) as [C|C].
    - apply vec_reserve_run in E1 as (Q & A & B & G). split; [exact Q|]. split; [lia|]. split; [exact G|]. intros _.
      destruct (N.ltb_spec (h_cap (x_heap s) - len (memory s)) (h_cap (x_heap s))) as [X|X].
      + left. rewrite (B X). lia.
      + right. destruct (A X) as [_ ->]. lia.
    - injection E1 as <-. split; [destruct s as [? [? ? ?] ? ? ? ?]; reflexivity|]. split; [reflexivity|]. split; lia. }
  clear E1. destruct H1 as (Q1 & A1 & G1 & B1).
  assert (M1 : memory s1 = memory s) by (rewrite Q1; reflexivity).
  apply bind_inv_ok in E as (b & s0 & E0 & E). injection E0 as <- <-. change (h_mem (x_heap s1)) with (memory s1) in E.
  rewrite M1 in E. apply bind_inv_ok in E as (a & s0 & E0 & E).
  assert (a = len (memory s) + size /\ s0 = s1) as [-> ->].
  { destruct (u_add p 64 (len (memory s)) size) as [c|] eqn:U; [|discriminate]. injection E0 as <- <-.
    split; [now apply (no_wrap_add p)|reflexivity]. }
  clear E0. apply bind_inv_ok in E as ([] & s2 & E2 & E). injection E as <- <-. unfold vec_resize in E2.
  apply bind_inv_ok in E2 as (l & s0 & E0 & E). injection E0 as <- <-. change (h_mem (x_heap s1)) with (memory s1) in E.
  rewrite M1 in E. destruct (N.ltb_spec (len (memory s)) (len (memory s) + size)) as [_|X]; [|lia].
  replace (len (memory s) + size - len (memory s)) with size in E by lia.
  apply bind_inv_ok in E as ([] & s3 & E3 & E). apply vec_reserve_run in E3 as (Q3 & A3 & B3 & G3). injection E as <-.
  rewrite M1 in *. clear M1. cbn [x_heap set_heap h_gen h_cap].
  assert (M3 : h_mem (x_heap s3) = memory s) by (rewrite Q3; reflexivity). rewrite M3.
  split; [rewrite Q3, Q1; reflexivity|]. split; [reflexivity|]. split.
  - intro C. specialize (A1 C). subst s1. apply A3. lia.
  - intro C. destruct (B1 C) as [X|X]; [lia|]. rewrite (B3 X). lia.
Qed.

(** ** Allocations *)

Lemma on_vm_pure {A} (m : M vm A) s a s' : pure m -> on_vm m s = Ok a s' -> s' = s /\ m (x_vm s) = Ok a (x_vm s).
Proof.
  intro P. unfold on_vm. specialize (P (x_vm s)). destruct (m (x_vm s)) as [b v| | | |]; try discriminate. intro E. injection E as <- <-.
  subst v. split; [now destruct s|reflexivity].
Qed.
Lemma on_vm_run {A} (m : M vm A) s a s' : on_vm m s = Ok a s' -> exists v, m (x_vm s) = Ok a v /\ s' = set_vm s v.
Proof. unfold on_vm. destruct (m (x_vm s)) as [b v| | | |]; try discriminate. intro E. injection E as <- <-. eauto. Qed.
Lemma id_of_run t s id s' : id_of t s = Ok id s' -> s' = s /\ exists ti, nth_error (c_types s) t = Some ti /\ id = ti_id ti.
Proof.
  unfold id_of, bind, the_type. destruct (nth_error (c_types s) t) as [ti|]; [|discriminate]. intro E. injection E as <- <-.
  split; [reflexivity|]. eauto.
Qed.
Lemma id_small p s t ti : consistent p s -> nth_error (c_types s) t = Some ti -> ti_id ti < 256 ^ N.of_nat 4.
Proof. intros W E. rewrite (ids_ok _ _ W _ _ E). apply N.mod_lt. discriminate. Qed.
Lemma ovf_run {S A} (o : option A) (s : S) a s' : ovf o s = Ok a s' -> s' = s /\ o = Some a.
Proof. destruct o; [|discriminate]. intro E. injection E as <- <-. auto. Qed.

Lemma computed_exact p n m : computed p n m -> no_wrap p n -> m = n.
Proof.
  intros [M D] NW. destruct p; [auto|]. rewrite M. apply N.mod_small. now apply NW.
Qed.
Lemma no_wrap_le p a b : no_wrap p b -> a <= b -> no_wrap p a.
Proof. intros H L P. specialize (H P). lia. Qed.

(** A state with another memory. *)
Definition with_memory (s : machine) (m : list byte) : machine :=
  set_heap s (mkHeap (h_gen (x_heap s)) (h_cap (x_heap s)) m).
Lemma store_with s o d bs before old after : o_gen o = h_gen (x_heap s) -> memory s = before ++ old ++ after ->
  len before = o_off o + d -> len bs = len old -> store o d bs s = Ok tt (with_memory s (before ++ bs ++ after)).
Proof. exact (store_at s o d bs before old after). Qed.

Lemma len_le_enc_N n x : len (le_enc n x) = N.of_nat n.
Proof. unfold len. now rewrite le_enc_length. Qed.

Lemma alloc_ok fuel p t s o s' : consistent p (x_vm s) -> alloc fuel p t s = Ok o s' ->
  exists bs, block (c_types (x_vm s')) (an_object t) bs /\ x_vm s' = x_vm s /\
    (no_wrap p (len (memory s) + len bs) -> allocated s o bs s').
Proof.
  intros W E. unfold alloc in E.
  apply bind_inv_ok in E as (n & s1 & E1 & E). apply on_vm_pure in E1 as [-> E1]; [|apply pure_type_size].
  destruct (type_size_run _ _ W _ _ _ _ E1) as (_ & m & S & C).
  apply bind_inv_ok in E as (sz & s1 & E2 & E). apply ovf_run in E2 as [-> U].
  apply bind_inv_ok in E as (o1 & s1 & E3 & E).
  apply bind_inv_ok in E as (id & s2 & E4 & E). apply on_vm_pure in E4 as [-> E4]; [|apply pure_id_of].
  apply id_of_run in E4 as (_ & ti & Et & ->).
  apply bind_inv_ok in E as ([] & s2 & E5 & E). injection E as <- <-.
  assert (V1 : x_vm s1 = x_vm s) by (pose proof (silent_make_room p sz s) as X; rewrite E3 in X; apply X).
  assert (V2 : x_vm s2 = x_vm s).
  { unfold store in E5. destruct (negb _); [discriminate|]. destruct (_ <=? _); [|discriminate]. injection E5 as <-. exact V1. }
  rewrite V1 in Et. exists ([x00] ++ le_enc 4 (ti_id ti) ++ zeros m).
  split; [rewrite V2; econstructor; eauto; apply encodes_le_enc; eapply id_small; eauto|]. split; [exact V2|].
  intro NW. rewrite !len_app, len_le_enc_N in NW. unfold zeros in NW. rewrite len_zeros in NW.
  change (len [x00]) with 1 in NW. change (N.of_nat 4) with 4 in NW.
  rewrite (computed_exact _ _ _ C) in * by (eapply no_wrap_le; [exact NW|lia]). clear C E1.
  apply no_wrap_add in U; [|eapply no_wrap_le; [exact NW|unfold object_header; lia]]. subst sz.
  apply make_room_run in E3 as (Q & -> & Fit & Grow);
    [|eapply no_wrap_le; [exact NW|unfold object_header; lia]|unfold object_header; lia].
  assert (M1 : memory s1 = (memory s ++ [x00]) ++ repeat x00 4 ++ repeat x00 (N.to_nat m)).
  { rewrite Q. cbn [memory x_heap set_heap h_mem]. rewrite zeros_app, <- !app_assoc. reflexivity. }
  rewrite (store_with _ _ 1 _ (memory s ++ [x00]) (repeat x00 4) (repeat x00 (N.to_nat m))) in E5;
    [|reflexivity|exact M1|rewrite len_app; reflexivity|apply len_le_enc_N]. injection E5 as <-.
  unfold with_memory in *. rewrite <- app_assoc. unfold allocated. cbn [memory x_heap set_heap h_mem h_gen h_cap].
  split; [reflexivity|]. split; [reflexivity|]. rewrite Q. cbn [x_frames x_alloc x_operands x_host set_heap].
  do 4 (split; [reflexivity|]). rewrite !len_app, len_le_enc_N. unfold zeros. rewrite len_zeros.
  change (len [x00] + (N.of_nat 4 + m)) with (1 + (4 + m)). replace (1 + (4 + m)) with (object_header + m) by (unfold object_header; lia).
  cbn [x_heap h_gen h_cap]. split; assumption.
Qed.

(** Room, and the byte of flags. *)
Lemma flagged p size s o s1 f s2 : make_room p (1 + size) s = Ok o s1 -> add_flag o f s1 = Ok tt s2 ->
  no_wrap p (len (memory s) + (1 + size)) ->
  s2 = set_heap s (mkHeap (h_gen (x_heap s1)) (h_cap (x_heap s1)) (memory s ++ le_enc 1 f ++ repeat x00 (N.to_nat size))) /\
  o = mkObj (h_gen (x_heap s1)) (len (memory s)) /\
  (len (memory s) + (1 + size) <= h_cap (x_heap s) ->
     h_gen (x_heap s1) = h_gen (x_heap s) /\ h_cap (x_heap s1) = h_cap (x_heap s)) /\
  (h_cap (x_heap s) < len (memory s) + (1 + size) -> (h_gen (x_heap s) < h_gen (x_heap s1))%nat).
Proof.
  intros E1 E2 NW. apply make_room_run in E1 as (Q & -> & Fit & Grow); [|exact NW|lia].
  assert (M1 : memory s1 = memory s ++ [x00] ++ repeat x00 (N.to_nat size)).
  { rewrite Q. cbn [memory x_heap set_heap h_mem]. rewrite zeros_app. reflexivity. }
  unfold add_flag in E2. apply bind_inv_ok in E2 as (b & s0 & E0 & E2).
  rewrite (load_at s1 _ 0 1 (memory s) [x00] (repeat x00 (N.to_nat size))) in E0;
    [|reflexivity|exact M1|symmetry; apply N.add_0_r|reflexivity]. injection E0 as <- <-.
  change (le_dec [x00]) with 0 in E2. rewrite N.lor_0_l in E2.
  rewrite (store_with s1 _ 0 _ (memory s) [x00] (repeat x00 (N.to_nat size))) in E2;
    [|reflexivity|exact M1|symmetry; apply N.add_0_r|apply len_le_enc_N]. injection E2 as <-.
  split; [|auto]. unfold with_memory. rewrite Q at 1. reflexivity.
Qed.

Lemma silent_add_flag o f : silent (add_flag o f).
Proof. apply silent_bind; [apply silent_pure, pure_load|intro b; apply silent_store]. Qed.
Lemma silent_run {A} (m : M machine A) s a s' : silent m -> m s = Ok a s' -> x_vm s' = x_vm s.
Proof. intros H E. specialize (H s). now rewrite E in H. Qed.

Lemma u_mul_mod p a b c : u_mul p 64 a b = Some c -> computed p (a * b) c.
Proof.
  unfold u_mul. destruct (N.ltb_spec (a * b) (2 ^ 64)).
  - intro E. injection E as <-. now apply computed_small.
  - destruct p; [discriminate|]. intro E. injection E as <-. split; [reflexivity|discriminate].
Qed.

Lemma alloc_array_ok fuel p t length s o s' : consistent p (x_vm s) -> length < 2 ^ 64 ->
  alloc_array fuel p t length s = Ok o s' ->
  consistent p (x_vm s') /\ appends (x_vm s) (x_vm s') /\
  exists bs, block (c_types (x_vm s')) (an_array t length) bs /\
    (no_wrap p (len (memory s) + len bs) -> allocated s o bs s').
Proof.
  intros W Ln E. unfold alloc_array in E.
  apply bind_inv_ok in E as (n & s1 & E1 & E). apply on_vm_pure in E1 as [-> E1]; [|apply pure_type_size].
  destruct (type_size_run _ _ W _ _ _ _ E1) as (_ & m & S & C). clear E1.
  apply bind_inv_ok in E as (k & s1 & E2 & E). apply ovf_run in E2 as [-> U].
  apply bind_inv_ok in E as (sz & s1 & E2 & E). apply ovf_run in E2 as [-> U'].
  apply bind_inv_ok in E as (o1 & s1 & E3 & E).
  apply bind_inv_ok in E as ([] & s2 & E4 & E).
  assert (V2 : x_vm s2 = x_vm s).
  { apply silent_run in E3; [|apply silent_make_room]. apply silent_run in E4; [|apply silent_add_flag]. congruence. }
  apply bind_inv_ok in E as (u & s3 & E5 & E). apply on_vm_run in E5 as (v & E5 & ->). rewrite V2 in E5.
  destruct (array_of_run _ _ _ _ _ W E5) as (ti & ui & Et & Eu & _ & Lu & _).
  destruct (pres_run_ok _ _ _ _ _ _ _ (array_of_pres p (x_vm s) t) W E5) as (W' & A & _). clear E5.
  apply bind_inv_ok in E as (id & s4 & E6 & E). apply on_vm_pure in E6 as [-> E6]; [|apply pure_id_of].
  apply id_of_run in E6 as (_ & ui' & Eu' & ->). cbn [x_vm set_vm] in Eu'. assert (ui' = ui) as -> by congruence. clear Eu'.
  apply bind_inv_ok in E as ([] & s5 & E7 & E). pose proof (silent_run _ _ _ _ (silent_store _ _ _) E7) as V5. cbn [x_vm set_vm] in V5.
  apply bind_inv_ok in E as (id & s6 & E8 & E). apply on_vm_pure in E8 as [-> E8]; [|apply pure_id_of].
  apply id_of_run in E8 as (_ & ti' & Et' & ->). rewrite V5 in Et'.
  assert (ti' = ti) as ->. { rewrite (appends_nth _ _ _ A) in Et' by (exact (nth_lt _ _ _ Et)). congruence. }
  apply bind_inv_ok in E as ([] & s7 & E9 & E). pose proof (silent_run _ _ _ _ (silent_store _ _ _) E9) as V7.
  apply bind_inv_ok in E as ([] & s8 & E10 & E). pose proof (silent_run _ _ _ _ (silent_store _ _ _) E10) as V8. injection E as <- <-.
  assert (V : x_vm s8 = v) by congruence. rewrite V. split; [exact W'|]. split; [exact A|].
  exists ([x02] ++ le_enc 4 (ti_id ui) ++ le_enc 4 (ti_id ti) ++ le_enc 8 length ++ zeros (m * length)). split.
  { econstructor; eauto.
    - apply encodes_le_enc. eapply id_small; [exact W'|exact Eu].
    - apply encodes_le_enc. eapply id_small; [exact W|exact Et].
    - destruct (ap_types _ _ A) as [l ->]. eapply size_appends; eauto.
    - apply encodes_le_enc. exact Ln. }
  intro NW. rewrite !len_app, !len_le_enc_N in NW. unfold zeros in NW. rewrite len_zeros in NW.
  change (len [x02]) with 1 in NW. change (N.of_nat 4) with 4 in NW. change (N.of_nat 8) with 8 in NW.
  assert (K : k = m * length).
  { apply u_mul_mod in U. destruct (N.eq_dec length 0) as [->|NZ].
    - rewrite N.mul_0_r in *. apply computed_exact in U; [exact U|]. intros _. reflexivity.
    - rewrite (computed_exact _ _ _ C) in U by (eapply no_wrap_le; [exact NW|nia]).
      apply computed_exact in U; [exact U|]. eapply no_wrap_le; [exact NW|lia]. }
  subst k. clear U C S. apply no_wrap_add in U'; [|eapply no_wrap_le; [exact NW|unfold array_header; lia]]. unfold array_header in U'. subst sz.
  remember (m * length) as k eqn:Hk. clear m n Hk Ln.
  replace (17 + k) with (1 + (16 + k)) in E3 by lia.
  destruct (flagged _ _ _ _ _ _ _ E3 E4) as (Q & -> & Fit & Grow); [eapply no_wrap_le; [exact NW|lia]|]. clear E3 E4.
  remember (h_gen (x_heap s1)) as g eqn:Hg. remember (h_cap (x_heap s1)) as c eqn:Hc. clear s1 Hg Hc V2.
  assert (Z : repeat x00 (N.to_nat (16 + k)) = repeat x00 4 ++ repeat x00 4 ++ repeat x00 8 ++ repeat x00 (N.to_nat k)).
  { replace (16 + k) with (4 + (4 + (8 + k))) by lia. rewrite !zeros_app. reflexivity. }
  rewrite Z in Q. clear Z. subst s2.
  rewrite (store_with _ _ 1 _ (memory s ++ [x02]) (repeat x00 4) (repeat x00 4 ++ repeat x00 8 ++ repeat x00 (N.to_nat k))) in E7;
    [|reflexivity| |rewrite len_app; reflexivity|apply len_le_enc_N].
  2:{ cbn [memory x_heap set_heap set_vm h_mem]. rewrite <- !app_assoc. reflexivity. }
  injection E7 as <-.
  rewrite (store_with _ _ 5 _ ((memory s ++ [x02]) ++ le_enc 4 (ti_id ui)) (repeat x00 4) (repeat x00 8 ++ repeat x00 (N.to_nat k))) in E9;
    [|reflexivity| |rewrite !len_app, len_le_enc_N; cbn [o_off]; change (len [x02]) with 1; lia|apply len_le_enc_N].
  2:{ cbn [memory x_heap set_heap set_vm with_memory h_mem]. rewrite <- !app_assoc. reflexivity. }
  injection E9 as <-.
  rewrite (store_with _ _ 9 _ (((memory s ++ [x02]) ++ le_enc 4 (ti_id ui)) ++ le_enc 4 (ti_id ti)) (repeat x00 8) (repeat x00 (N.to_nat k))) in E10;
    [|reflexivity| |rewrite !len_app, !len_le_enc_N; cbn [o_off]; change (len [x02]) with 1; lia|apply len_le_enc_N].
  2:{ cbn [memory x_heap set_heap set_vm with_memory h_mem]. rewrite <- !app_assoc. reflexivity. }
  injection E10 as <-. unfold allocated, with_memory. cbn [memory x_heap set_heap set_vm h_mem h_gen h_cap x_frames x_alloc x_operands x_host].
  split; [now rewrite <- !app_assoc|]. split; [reflexivity|]. do 4 (split; [reflexivity|]).
  rewrite !len_app, !len_le_enc_N. unfold zeros. rewrite len_zeros.
  replace (len [x02] + (N.of_nat 4 + (N.of_nat 4 + (N.of_nat 8 + k)))) with (1 + (16 + k)) by (change (len [x02]) with 1; lia).
  split; assumption.
Qed.

Lemma len_units text : len (concat (map (le_enc 2) text)) = 2 * len text.
Proof.
  induction text as [|u text IH]; [reflexivity|]. cbn [map concat]. rewrite len_app, IH, len_cons, len_le_enc_N. lia.
Qed.

Lemma alloc_string_ok p text s o s' : consistent p (x_vm s) -> Forall (fun u => u < 2 ^ 16) text -> len text < 2 ^ 64 ->
  alloc_string p text s = Ok o s' ->
  x_vm s' = x_vm s /\
  exists bs, block (c_types (x_vm s')) (a_string text) bs /\
    (no_wrap p (len (memory s) + len bs) -> allocated s o bs s').
Proof.
  intros W Un Ln E. unfold alloc_string in E.
  apply bind_inv_ok in E as (k & s1 & E2 & E). apply ovf_run in E2 as [-> U].
  apply bind_inv_ok in E as (sz & s1 & E2 & E). apply ovf_run in E2 as [-> U'].
  apply bind_inv_ok in E as (o1 & s1 & E3 & E).
  apply bind_inv_ok in E as ([] & s2 & E4 & E).
  assert (V2 : x_vm s2 = x_vm s).
  { apply silent_run in E3; [|apply silent_make_room]. apply silent_run in E4; [|apply silent_add_flag]. congruence. }
  apply bind_inv_ok in E as (u & s3 & E5 & E). apply on_vm_pure in E5 as [-> E5]; [|apply pure_named]. rewrite V2 in E5.
  destruct (named_run _ _ _ _ _ W E5) as (_ & Lu). destruct Lu as [(ui & Eu & Nu) Lu']. assert (Lu : latest (c_types (x_vm s)) (bytes_of_string "System.String") u) by (split; eauto). clear E5.
  apply bind_inv_ok in E as (id & s4 & E6 & E). apply on_vm_pure in E6 as [-> E6]; [|apply pure_id_of].
  apply id_of_run in E6 as (_ & ui' & Eu' & ->). rewrite V2 in Eu'. assert (ui' = ui) as -> by congruence. clear Eu'.
  apply bind_inv_ok in E as ([] & s5 & E7 & E). pose proof (silent_run _ _ _ _ (silent_store _ _ _) E7) as V5.
  apply bind_inv_ok in E as ([] & s7 & E9 & E). pose proof (silent_run _ _ _ _ (silent_store _ _ _) E9) as V7.
  apply bind_inv_ok in E as ([] & s8 & E10 & E). pose proof (silent_run _ _ _ _ (silent_store _ _ _) E10) as V8. injection E as <- <-.
  assert (V : x_vm s8 = x_vm s) by congruence. rewrite V. split; [reflexivity|].
  exists ([x04] ++ le_enc 4 (ti_id ui) ++ le_enc 8 (len text) ++ concat (map (le_enc 2) text)). split.
  { econstructor; eauto.
    - apply encodes_le_enc. eapply id_small; [exact W|exact Eu].
    - apply encodes_le_enc. exact Ln.
    - clear - Un. induction Un as [|u text Hu Un IH]; cbn [map]; constructor; auto. now apply encodes_le_enc. }
  pose proof (len_units text) as LC. remember (concat (map (le_enc 2) text)) as units eqn:HU. clear HU.
  intro NW. rewrite !len_app, !len_le_enc_N, LC in NW.
  change (len [x04]) with 1 in NW. change (N.of_nat 4) with 4 in NW. change (N.of_nat 8) with 8 in NW.
  apply u_mul_mod in U. apply computed_exact in U; [|eapply no_wrap_le; [exact NW|lia]]. rewrite <- U in LC, NW. clear U.
  apply no_wrap_add in U'; [|eapply no_wrap_le; [exact NW|unfold string_header; lia]]. unfold string_header in *. subst sz.
  replace (13 + k) with (1 + (12 + k)) in E3 by lia.
  destruct (flagged _ _ _ _ _ _ _ E3 E4) as (Q & -> & Fit & Grow); [eapply no_wrap_le; [exact NW|lia]|]. clear E3 E4.
  remember (h_gen (x_heap s1)) as g eqn:Hg. remember (h_cap (x_heap s1)) as c eqn:Hc. clear s1 Hg Hc V2.
  assert (Z : repeat x00 (N.to_nat (12 + k)) = repeat x00 4 ++ repeat x00 8 ++ repeat x00 (N.to_nat k) ++ []).
  { replace (12 + k) with (4 + (8 + k)) by lia. rewrite !zeros_app, app_nil_r. reflexivity. }
  rewrite Z in Q. clear Z. subst s2.
  rewrite (store_with _ _ 1 _ (memory s ++ [x04]) (repeat x00 4) (repeat x00 8 ++ repeat x00 (N.to_nat k) ++ [])) in E7;
    [|reflexivity| |rewrite len_app; reflexivity|apply len_le_enc_N].
  2:{ cbn [memory x_heap set_heap set_vm h_mem]. rewrite <- !app_assoc. reflexivity. }
  injection E7 as <-.
  rewrite (store_with _ _ 5 _ ((memory s ++ [x04]) ++ le_enc 4 (ti_id ui)) (repeat x00 8) (repeat x00 (N.to_nat k) ++ [])) in E9;
    [|reflexivity| |rewrite !len_app, len_le_enc_N; cbn [o_off]; change (len [x04]) with 1; lia|apply len_le_enc_N].
  2:{ cbn [memory x_heap set_heap set_vm with_memory h_mem]. rewrite <- !app_assoc. reflexivity. }
  injection E9 as <-.
  rewrite (store_with _ _ 13 _ (((memory s ++ [x04]) ++ le_enc 4 (ti_id ui)) ++ le_enc 8 (len text)) (repeat x00 (N.to_nat k)) []) in E10;
    [|reflexivity| |rewrite !len_app, !len_le_enc_N; cbn [o_off]; change (len [x04]) with 1; lia|rewrite len_zeros; exact LC].
  2:{ cbn [memory x_heap set_heap set_vm with_memory h_mem]. rewrite <- !app_assoc. reflexivity. }
  injection E10 as <-. unfold allocated, with_memory. cbn [memory x_heap set_heap set_vm h_mem h_gen h_cap x_frames x_alloc x_operands x_host].
  split; [now rewrite <- !app_assoc, app_nil_r|]. split; [reflexivity|]. do 4 (split; [reflexivity|]).
  rewrite !len_app, !len_le_enc_N, LC.
  replace (len [x04] + (N.of_nat 4 + (N.of_nat 8 + k))) with (1 + (12 + k)) by (change (len [x04]) with 1; lia).
  split; assumption.
Qed.

Lemma granted_ok p s r o s' : consistent p (x_vm s) -> granted p s r o s' ->
  consistent p (x_vm s') /\ appends (x_vm s) (x_vm s') /\
  exists bs, block (c_types (x_vm s')) r bs /\ (no_wrap p (len (memory s) + len bs) -> allocated s o bs s').
Proof.
  intros W [fuel t o' s1 E|fuel t length o' s1 L E|text o' s1 Un Ln E].
  - destruct (alloc_ok _ _ _ _ _ _ W E) as (bs & B & V & A). rewrite V in *. split; [exact W|]. split; [apply appends_refl|]. eauto.
  - exact (alloc_array_ok _ _ _ _ _ _ _ W L E).
  - destruct (alloc_string_ok _ _ _ _ _ W Un Ln E) as (V & bs & B & A). rewrite V in *. split; [exact W|]. split; [apply appends_refl|]. eauto.
Qed.

Lemma block_unique ts r bs bs' : block ts r bs -> block ts r bs' -> bs = bs'.
Proof.
  intros B B'. destruct B as [t ti n id Et Ei Sz|t ti u ui n length id eid l Eu Ei Lu Et Ee Sz El|u ui text id l cs Eu Ei Lu El Cs];
    inversion B' as [t' ti' n' id' Et' Ei' Sz'|t' ti' u' ui' n' length' id' eid' l' Eu' Ei' Lu' Et' Ee' Sz' El'|
                     u' ui' text' id' l' cs' Eu' Ei' Lu' El' Cs']; subst.
  - assert (ti' = ti) as -> by congruence. rewrite (encodes_eq _ _ _ Ei), (encodes_eq _ _ _ Ei'), (size_unique _ _ _ _ Sz Sz'). reflexivity.
  - assert (ti' = ti) as -> by congruence. assert (u' = u) as -> by (eapply latest_unique; eauto). assert (ui' = ui) as -> by congruence.
    rewrite (encodes_eq _ _ _ Ei), (encodes_eq _ _ _ Ei'), (encodes_eq _ _ _ Ee), (encodes_eq _ _ _ Ee'),
      (encodes_eq _ _ _ El), (encodes_eq _ _ _ El'), (size_unique _ _ _ _ Sz Sz'). reflexivity.
  - assert (u' = u) as -> by (eapply latest_unique; eauto). assert (ui' = ui) as -> by congruence.
    rewrite (encodes_eq _ _ _ Ei), (encodes_eq _ _ _ Ei'), (encodes_eq _ _ _ El), (encodes_eq _ _ _ El'). do 4 f_equal.
    clear - Cs Cs'. revert cs' Cs'. induction Cs as [|a b l l' H Cs IH]; intros cs' Cs'; inversion Cs' as [|? b' ? ? H' Cs'']; subst; [reflexivity|].
    rewrite (encodes_eq _ _ _ H), (encodes_eq _ _ _ H'). f_equal. now apply IH.
Qed.

(** ** Histories of allocations *)

Lemma grants_ok p s l s' : consistent p (x_vm s) -> grants p s l s' ->
  consistent p (x_vm s') /\ memory s' = memory s ++ concat (map snd l) /\
  (forall before o bs after, l = before ++ (o, bs) :: after -> o_off o = len (memory s ++ concat (map snd before))) /\
  (h_gen (x_heap s) <= h_gen (x_heap s'))%nat /\
  (len (memory s') <= h_cap (x_heap s) -> h_gen (x_heap s') = h_gen (x_heap s) /\ h_cap (x_heap s') = h_cap (x_heap s) /\
     forall o bs, In (o, bs) l -> o_gen o = h_gen (x_heap s)) /\
  (len (memory s) <= h_cap (x_heap s) -> h_cap (x_heap s) < len (memory s') -> (h_gen (x_heap s) < h_gen (x_heap s'))%nat).
Proof.
  intros W H. induction H as [|l s1 r o bs s2 H IH G B NW].
  - split; [exact W|]. rewrite app_nil_r. split; [reflexivity|]. split; [intros [|] ? ? ?; discriminate|]. split; [lia|].
    split; [|lia]. intros _. split; [reflexivity|]. split; [reflexivity|]. intros ? ? [].
  - destruct IH as (W1 & M1 & O1 & G1 & F1 & C1).
    destruct (granted_ok _ _ _ _ _ W1 G) as (W2 & _ & bs' & B' & A). rewrite (block_unique _ _ _ _ B' B) in A. clear B' bs'.
    destruct (A NW) as (M2 & -> & _ & _ & _ & _ & Fit & Grow).
    assert (MM : memory s2 = memory s ++ concat (map snd (l ++ [(mkObj (h_gen (x_heap s2)) (len (memory s1)), bs)]))).
    { rewrite M2, M1, map_app, concat_app. cbn. now rewrite app_nil_r, <- app_assoc. }
    split; [exact W2|]. split; [exact MM|]. split.
    { intros before o b after E. destruct after as [|a after] using rev_ind.
      - apply app_inj_tail in E as [-> E]. injection E as <- <-. cbn [o_off]. now rewrite M1.
      - clear IHafter. rewrite app_comm_cons, app_assoc in E. apply app_inj_tail in E as [E _]. exact (O1 _ _ _ _ E). }
    assert (G12 : (h_gen (x_heap s1) <= h_gen (x_heap s2))%nat).
    { destruct (N.le_gt_cases (len (memory s1) + len bs) (h_cap (x_heap s1))) as [L|L].
      - destruct (Fit L) as [-> _]. lia.
      - specialize (Grow L). lia. }
    split; [lia|]. rewrite M2, len_app. split.
    + intro L. destruct F1 as (FG & FC & FI); [lia|]. rewrite FC in Fit. destruct (Fit L) as (FG' & FC'). rewrite FG', FC', FG. split; [reflexivity|].
      split; [reflexivity|]. intros o b I. apply in_app_or in I as [I|[I|[]]]; [eauto|]. injection I as <- <-. reflexivity.
    + intros L0 L. destruct (N.le_gt_cases (len (memory s1)) (h_cap (x_heap s))) as [L1|L1].
      * destruct (F1 L1) as (FG & FC & _). rewrite FC in Grow. rewrite <- FG. apply Grow. exact L.
      * specialize (C1 L0 L1). lia.
Qed.

(** Programs executed from the images that hold them, and the test program: C69 and C70. *)
From Coq Require Import NArith ZArith String List Bool Lia.
From Coq.Strings Require Import Byte.
From Verif Require Import Base BaseFacts ParseSpec Attributes Tables Blob Metadata Utf SpecUtf Runtime Loader Value Opcodes Gc Interp SpecExec SpecFrames SpecStack SpecRuntime SpecHistory
  SpecHeap SpecLang InterpFacts InterpInv RuntimeInv FrameFacts TraceFacts StackFacts HistoryProofs LangFacts LangProofs DemoStates DemoRuns
  PropsLang SpecBytes SpecBlob SpecMetadata SpecBody SpecTypes SpecLoader SpecCalls CallLangFacts CallLangProofs PropsCalls SpecImage LoaderFacts LoaderRun DemoImages ZooStates DemoFacts PropsLoader Host FuelFacts.
Import ListNotations.
Open Scope N_scope.

(** ** Code and the meaning of tokens *)

Section Mono.
  Variables (P : list function) (T T' : tokens).
  Hypothesis Hf : forall bs g, for_function T bs g -> for_function T' bs g.
  Hypothesis Ht : forall bs text, for_text T bs text -> for_text T' bs text.
  Hypothesis Hw : forall bs, for_writer T bs -> for_writer T' bs.

  Lemma codes_mono : (forall e bs, exp_code P T e bs -> exp_code P T' e bs) /\ (forall es bs, exps_code P T es bs -> exps_code P T' es bs).
  Proof. apply codes_ind; intros; econstructor; eauto. Qed.
  Lemma test_mono c want ts n : test_code P T c want ts n -> test_code P T' c want ts n.
  Proof. destruct codes_mono as [E _]. induction 1; econstructor; eauto. Qed.
  Lemma com_mono has c bs : com_code P T has c bs -> com_code P T' has c bs.
  Proof. destruct codes_mono as [E Es]. induction 1; econstructor; eauto using test_mono. Qed.
End Mono.

(** ** Images *)

Lemma token_number k : k < 2 ^ 32 -> List.length (le_enc 4 k) = 4%nat /\ Z.to_N (number (le_enc 4 k)) = k.
Proof.
  intro K. split; [apply le_enc_length|]. rewrite number_le_dec, N2Z.id. apply le_dec_enc. exact K.
Qed.

Lemma choose_all {A B} (R : A -> B -> Prop) l : Forall (fun x => exists y, R x y) l -> exists ys, Forall2 R l ys.
Proof. induction 1 as [|x l [y Q] _ [ys IH]]; [exists []; constructor|]. exists (y :: ys). now constructor. Qed.
Lemma Forall2_through {A B C} (R : A -> B -> Prop) (Q : B -> C -> Prop) (S : A -> C -> Prop) : (forall x y z, R x y -> Q y z -> S x z) ->
  forall xs ys zs, Forall2 R xs ys -> Forall2 Q ys zs -> Forall2 S xs zs.
Proof. intros H xs ys zs F. revert zs. induction F; intros zs G; inversion G; subst; constructor; eauto. Qed.
Lemma Forall2_lengths {A B} (R : A -> B -> Prop) xs ys : Forall2 R xs ys -> List.length xs = List.length ys.
Proof. induction 1; cbn; congruence. Qed.
Lemma len_ints n : List.length (concat (map enc_type (repeat int32_type n))) = n.
Proof. induction n as [|n IH]; [reflexivity|]. cbn [repeat map concat]. rewrite app_length, IH. reflexivity. Qed.
Lemma utf16_units cs : Forall scalar cs -> Forall (fun u => u < 2 ^ 16) (utf16_encode cs).
Proof.
  unfold utf16_encode. change (2 ^ 16) with 0x10000. induction 1 as [|c cs Hc _ IH]; [constructor|]. cbn [map concat]. apply Forall_app. split; [|exact IH].
  unfold utf16_char, scalar in *. destruct (N.ltb_spec c 0x10000); repeat constructor.
  - assumption.
  - assert (c - 0x10000 < 1024 * 0x400) by lia. assert ((c - 0x10000) / 1024 < 0x400) by (apply N.div_lt_upper_bound; lia). lia.
  - pose proof (N.mod_lt (c - 0x10000) 1024 ltac:(lia)). lia.
Qed.
Lemma parent_one md row fn fn' : parent_of md row fn -> parent_of md row fn' -> fn = fn'.
Proof.
  intros (t & n & ns & R & Hn & Hns & ->) (t' & n' & ns' & R' & Hn' & Hns' & ->). rewrite (row_unique _ _ _ _ R' R) in *.
  now rewrite (heap_text_one _ _ _ _ Hn Hn'), (heap_text_one _ _ _ _ Hns Hns').
Qed.
Lemma last_called_one {A} (nm : A -> name) n l x y : last_called nm n l (Some x) -> last_called nm n l (Some y) -> x = y.
Proof.
  intros (l1 & l2 & -> & Nx & Lx) (r1 & r2 & Q & Ny & Ly). revert r1 Q. induction l1 as [|z l1 IH]; intros [|w r1] Q; cbn in Q.
  - now injection Q.
  - injection Q as <- ->. exfalso. apply (Lx y); [apply in_elt|exact Ny].
  - injection Q as -> <-. exfalso. apply (Ly x); [apply in_elt|exact Nx].
  - injection Q as _ Q. exact (IH _ Q).
Qed.

Section Loaded.
  Variables (p : profile) (fs : file_system) (paths : list name) (s : vm) (fuel : nat) (data : list byte) (md : metadata) (a : aref) (s1 s2 : vm).
  Variables (P : list function) (ks : list N).
  Hypothesis H : history p fs paths s.
  Hypothesis Em : read_metadata p data tt = Ok md tt.
  Hypothesis I : program_image md P ks.
  Hypothesis RL : references_loaded s md.
  Hypothesis CP : can_print s.
  Hypothesis E : load_data fuel p fs data s = Ok a s1.
  Hypothesis La : later p fs s1 s2.

  Definition at_row (k : N) (m : method_info) : Prop := resolve_method p a (0x06000000 + k) s2 = Ok (Some m) s2.

  Lemma the_rows : Forall (fun k => exists m, at_row k m) ks.
  Proof.
    pose proof (pr_functions _ _ _ I) as F. induction F as [|f k P' ks' (row & code & R & _) _ IH] in |- *; constructor; [|exact IH].
    destruct (C34_method_tokens _ _ _ _ _ _ _ _ _ _ _ _ H Em (proj1 (pr_addressable _ _ _ I)) (pr_listed _ _ _ I) E La R) as (m & j & o & Q & _).
    exists m. exact Q.
  Qed.
  Lemma the_methods : exists ms, Forall2 at_row ks ms.
  Proof. exact (choose_all _ _ the_rows). Qed.

  Lemma loaded_code ms : Forall2 at_row ks ms -> forall has c bs, com_code P (image_tokens md ks) has c bs -> com_code P (resolved s2 ms a) has c bs.
  Proof.
    intro FM. pose proof (pr_addressable _ _ _ I) as [Hmd Us]. pose proof (pr_listed _ _ _ I) as Hl. destruct (history_ok _ _ _ _ H) as (W & _).
    destruct (load_data_run _ _ _ _ _ _ _ _ W Em Hmd Hl E) as (s0 & ai & m & W0 & V0 & W1 & V1 & Ea & F & _ & _ & Eu & _ & _ & S0).
    pose proof (S0 RL) as ->. clear S0. pose proof (later_assembly _ _ _ _ _ _ La W1 Ea) as Ea2.
    pose proof (proj2 (proj2 (proj2 (proj2 Hl)))) as Lm. assert (Pw : 2 ^ 24 = 16777216) by reflexivity.
    intros has c bs. apply com_mono; cbn [for_function for_text for_writer image_tokens resolved].
    - intros t g (k & Ek & ->). destruct (Forall2_nth_error_l _ _ _ _ _ FM Ek) as (x & Ex & Q).
      assert (R : exists row, row_of (tb_method_def (m_tables md)) k row).
      { pose proof (pr_functions _ _ _ I) as G. clear - G Ek. revert g Ek. induction G as [|f k0 P' ks' (row & code & R & _) _ IH]; intros [|g] Ek; cbn in Ek; try discriminate.
        - injection Ek as ->. eauto.
        - eauto. }
      destruct R as [row R]. assert (K : 1 <= k < 2 ^ 24) by (apply (row_small _ _ _ _ R); lia).
      destruct (token_number (0x06000000 + k)) as [L4 Nb]; [change (2 ^ 32) with 4294967296; rewrite ?Pw in *; lia|].
      split; [exact L4|]. exists x. split; [exact Ex|]. rewrite Nb. exists ai, (k - 1). split; [exact Ea2|]. split; [lia|]. left.
      split; [rewrite Pw; lia|]. unfold at_row in Q. rewrite (resolve_method_def_at p a s2 ai k Ea2 K) in Q. now injection Q.
    - intros t text (h & last & -> & Lh & Sc & Sz & (pre & post & Eus & Lp)).
      destruct (token_number (0x70000000 + h)) as [L4 Nb]; [change (2 ^ 32) with 4294967296; rewrite ?Pw in *; lia|].
      split; [exact L4|]. split; [exact Sc|]. rewrite Nb. split.
      + exists ai, pre, last, post. rewrite Eu. split; [exact Ea2|]. rewrite Lp. split; [exact Lh|]. split; [rewrite Pw; lia|].
        split; [now apply utf16_units|]. split; [exact Sz|]. split; [exact Us|]. rewrite Eus, <- !app_assoc. reflexivity.
      + destruct CP as [(ti & In1 & Nm) _]. exists ti. split; [|exact Nm]. destruct (ev_types _ _ V1) as [l1 El1].
        destruct (later_ok _ _ _ _ La W1) as [_ G]. destruct (SpecRuntime.gr_types _ _ G) as [l2 ->]. rewrite El1.
        apply in_or_app. left. apply in_or_app. now left.
    - intros t (k & row & -> & K2 & R & Hn & Pa).
      destruct (C35_type_ref_parents_partial _ _ _ _ _ _ _ _ _ _ _ _ H Em Hmd Hl (pr_refs _ _ _ I) E La R K2) as (x & fn & ti & Q & Hx & Pf & Et & Fn & Lc & Lt).
      pose proof (proj1 R) as K1.
      destruct (token_number (0x0a000000 + k)) as [L4 Nb]; [change (2 ^ 32) with 4294967296; rewrite ?Pw in *; lia|].
      split; [exact L4|]. exists x. rewrite Nb. split; [exists ai, (k - 1); split; [exact Ea2|]; split; [lia|]; right; split; [rewrite Pw; lia|]|].
      + rewrite (resolve_member_ref_at p a s2 ai k Ea2 (conj K1 K2)) in Q. now injection Q.
      + pose proof (parent_one _ _ _ _ Pf Pa) as ->. destruct CP as [_ (u & ui & m' & Lu & Eu' & Lc' & Im & Ar)].
        pose proof (latest_one _ _ _ _ Lu (Lt RL)) as ->.
        assert (ui = ti) as ->.
        { destruct (ev_types _ _ V1) as [l1 El1]. pose proof (later_type _ _ _ _ (mt_declaring x) ui La W1) as X.
          rewrite El1, nth_error_app1 in X by exact (nth_lt _ _ _ Eu'). specialize (X Eu'). congruence. }
        rewrite <- (heap_text_one _ _ _ _ Hn Hx) in Lc. rewrite (last_called_one _ _ _ _ _ Lc Lc'). auto.
  Qed.

  Lemma int_names n : Forall2 (type_name md) (repeat int32_type n) (repeat (bytes_of_string "System.Int32") n).
  Proof. induction n; cbn [repeat]; constructor; auto. now apply (name_simple md PI4 "System.Int32"). Qed.
  Lemma signature_ok f h : heap_blob md h (enc_method_sig (signature_of f)) -> method_sig_ok (signature_of f).
  Proof.
    intros [_ L]. unfold method_sig_ok, signature_of. cbn [ms_generic ms_args ms_extra ms_result]. change (len []) with 0.
    split; [exact Logic.I|]. split; [|split; [destruct (fn_result f); exact Logic.I|split; [|constructor]]].
    - unfold enc_method_sig, signature_of in L. cbn [ms_has_this ms_explicit ms_is_vararg ms_generic ms_args ms_extra ms_result] in L.
      rewrite len_repeat. rewrite !app_nil_r in L. unfold len in L. cbn [List.length app] in L. rewrite !app_length in L.
      rewrite len_ints in L. lia.
    - apply Forall_forall. intros t Q. apply repeat_spec in Q as ->. exact Logic.I.
  Qed.

  Lemma function_compiled ms : Forall2 at_row ks ms -> forall f k m, image_function md P ks f k -> at_row k m -> compiled_function s2 P ms f m.
  Proof.
    intros FM f k m (row & code & R & St & Ab & Ic & Sg & Co & Bo) Q. pose proof (pr_addressable _ _ _ I) as [Hmd Us]. pose proof (pr_listed _ _ _ I) as Hl.
    destruct (C34_method_tokens _ _ _ _ _ _ _ _ _ _ _ _ H Em Hmd Hl E La R) as (x & j & o & Q' & B & To & As).
    assert (x = m) as -> by (unfold at_row in Q; congruence). clear Q'.
    assert (Rj : exists rj, row_of (tb_type_def (m_tables md)) j rj).
    { destruct B as (y & [K Y] & _). rewrite nth_error_map in Y. destruct (nth_error (tb_type_def (m_tables md)) (N.to_nat (j - 1))) as [r|] eqn:Z; [|discriminate].
      exists r. split; assumption. }
    destruct Rj as [rj Rj]. destruct (C65_type_tokens _ _ _ _ _ _ _ _ _ _ _ _ H Em Hmd Hl E La Rj) as (t & ti & Tt & Et & Ta).
    assert (t = o) as -> by congruence.
    destruct (history_ok _ _ _ _ H) as (W & _).
    destruct (load_data_run _ _ _ _ _ _ _ _ W Em Hmd Hl E) as (s0 & ai & m' & W0 & V0 & W1 & V1 & Ea & _).
    pose proof (later_assembly _ _ _ _ _ _ La W1 Ea) as Ea2.
    destruct (mas_types _ _ _ _ _ As (signature_of f) (if fn_result f then bytes_of_string "System.Int32" else bytes_of_string "System.Void")
      (repeat (bytes_of_string "System.Int32") (fn_params f))) as [Rn Pn].
    { exact (signature_ok _ _ Sg). } { reflexivity. } { exact Sg. }
    { unfold signature_of. cbn [ms_result]. destruct (fn_result f); [now apply (name_simple md PI4 "System.Int32")|now apply (name_simple md PVoid "System.Void")]. }
    { apply int_names. }
    split.
    - rewrite (mas_static _ _ _ _ _ As). exact St.
    - apply Forall2_lengths in Pn. rewrite map_length, repeat_length in Pn. exact Pn.
    - destruct Rn as (rt & Er & Nr). destruct (fn_result f).
      + eapply one_result; [exact Er|]. rewrite Nr. vm_compute. discriminate.
      + eapply no_result; [exact Er|exact Nr].
    - destruct (mas_code _ _ _ _ _ As Ic Ab) as (b & Im & Tiny & Fat). exists ti, ai, b. rewrite (mas_owner _ _ _ _ _ As), (tas_assembly _ _ _ _ Ta).
      split; [exact Et|]. split; [exact Ea2|]. split; [exact Im|].
      destruct Bo as [(L0 & Lc & At)|(init & more & mx & tok & Lm & Lc & At & Ls)].
      + destruct (Tiny _ Lc At) as (-> & _ & -> & _). split; [now rewrite L0|]. split; [assert (64 < 2 ^ 32) by reflexivity; lia|].
        now apply loaded_code.
      + assert (Lt : tok < 2 ^ 32) by (destruct Ls as [|? ? ? ? ? ? ?]; [reflexivity|]; change (2 ^ 24) with 16777216 in *; change (2 ^ 32) with 4294967296; lia).
        destruct (Fat _ _ _ _ _ Lm Lt Lc At) as (-> & _ & _ & Lo). split; [|split; [exact Lc|now apply loaded_code]].
        specialize (Lo _ (repeat (bytes_of_string "System.Int32") (fn_locals f)) Ls). apply Forall2_lengths in Lo; [now rewrite repeat_length in Lo| |apply int_names].
        apply Forall_forall. intros y Y. apply repeat_spec in Y as ->. exact Logic.I.
  Qed.
  Lemma loaded_program : exists ms, compiled_program s2 P ms /\ Forall2 at_row ks ms.
  Proof.
    destruct the_methods as [ms FM]. exists ms. split; [|exact FM].
    exact (Forall2_through _ _ _ (function_compiled ms FM) _ _ _ (pr_functions _ _ _ I) FM).
  Qed.
End Loaded.

(** ** The console *)

Lemma range_one starts total i j k : consecutive starts total -> (i < List.length starts)%nat -> (j < List.length starts)%nat ->
  bound starts total i <= k < bound starts total (S i) -> bound starts total j <= k < bound starts total (S j) -> i = j.
Proof.
  intros C Hi Hj Bi Bj. destruct (Nat.lt_trichotomy i j) as [X|[X|X]]; [|exact X|]; exfalso.
  - pose proof (bound_mono _ _ C (j - S i) (S i) ltac:(lia)) as Y. replace (S i + (j - S i))%nat with j in Y by lia. lia.
  - pose proof (bound_mono _ _ C (i - S j) (S j) ltac:(lia)) as Y. replace (S j + (i - S j))%nat with i in Y by lia. lia.
Qed.

Lemma console_loaded p fs fuel data md s a s1 : consistent p s -> read_metadata p data tt = Ok md tt -> console_image md ->
  load_data fuel p fs data s = Ok a s1 -> can_print s1.
Proof.
  intros W Em (Hmd & Hl & j & k & row & Nj & Nl & Bk & Rk & Hw & Lw & St & Ic & Sg) E.
  destruct (load_data_run _ _ _ _ _ _ _ _ W Em Hmd Hl E) as (s0 & ai & m & W0 & V0 & W1 & V1 & Ea & F & _).
  assert (Hj : 1 <= j /\ (N.to_nat (j - 1) < List.length (tb_type_def (m_tables md)))%nat).
  { inversion Nj as [? d x z K Ed Hx Hz|]; subst. split; [exact K|exact (nth_lt _ _ _ Ed)]. }
  destruct Hj as [J1 Hj]. set (i := N.to_nat (j - 1)) in *. assert (Ej : j = N.of_nat i + 1) by lia.
  pose proof (filled_names _ _ _ _ _ F) as Name.
  assert (Lt : latest (c_types s1) (bytes_of_string "System.Console") (m + i)%nat).
  { apply (fl_latest _ _ _ _ _ F i _ Hj); [apply Name; [exact Hj|now rewrite <- Ej]|].
    intros i' Hi' X. apply Name in X; [|lia]. apply (Nl (N.of_nat i' + 1)); [lia|exact X]. }
  destruct (fl_shape _ _ _ _ _ F _ Hj) as (row' & ti & Er & Et & _ & _ & _ & Lm & Nm).
  destruct (fl_methods _ _ _ _ _ F) as [Cm D]. destruct Hl as (_ & _ & Hm).
  assert (Eme : nth_error (map td_method_list (tb_type_def (m_tables md))) i = Some (td_method_list row')) by (rewrite nth_error_map, Er; reflexivity).
  destruct (members_iff _ _ _ _ _ _ Hm Eme Cm Lm Nm) as [Bm Im].
  assert (Kx : td_method_list row' <= k).
  { destruct Bk as (x & [_ X] & Lx & _). fold i in X. rewrite Eme in X. now injection X as ->. }
  set (q := N.to_nat (k - td_method_list row')). assert (Ek : td_method_list row' + N.of_nat q = k) by lia.
  pose proof (row_pos _ _ _ Rk) as Hk. destruct Rk as [K1 Rk]. assert (Kt : k <= len (tb_method_def (m_tables md))) by (unfold len; lia).
  destruct (nth_some (a_method_defs ai) (N.to_nat (k - 1))) as [x Ex]; [unfold len in *; lia|].
  assert (Qx : nth_error (ti_methods ti) q = Some x).
  { apply Im. rewrite Ek, <- Ej. auto. }
  assert (As : forall q' x', nth_error (ti_methods ti) q' = Some x' -> exists r, row_of (tb_method_def (m_tables md)) (td_method_list row' + N.of_nat q') r /\
    method_as md (c_types s1) r (m + i)%nat x').
  { intros q' x' X. pose proof (proj1 (Im _ _) X) as (B & L & Y). destruct (D _ _ Y) as (j' & r & Hj' & Bj & R' & A').
    replace (N.of_nat (N.to_nat (td_method_list row' + N.of_nat q' - 1)) + 1) with (td_method_list row' + N.of_nat q') in * by lia.
    exists r. split; [exact R'|]. replace i with j'; [exact A'|]. apply (range_one _ _ _ _ (td_method_list row' + N.of_nat q') Hm); rewrite ?map_length; try assumption.
    pose proof (bound_row _ (len (tb_method_def (m_tables md))) _ (nth_lt _ _ _ Eme)) as Br. rewrite Eme in Br. injection Br as Br. split; [lia|].
    now apply (run_within _ _ _ _ _ Hm Eme). }
  destruct (As _ _ Qx) as (row2 & R2 & A). rewrite Ek in R2. pose proof (row_unique _ _ _ _ R2 (conj K1 Rk)) as ->.
  match type of Sg with heap_blob _ _ (enc_method_sig ?x) => set (sg := x) in Sg end. assert (Os : method_sig_ok sg) by repeat constructor.
  destruct (mas_types _ _ _ _ _ A sg (bytes_of_string "System.Void") [bytes_of_string "System.String"] Os eq_refl Sg) as [_ Pn].
  { now apply (name_simple md PVoid "System.Void"). } { constructor; [now apply (name_simple md PString "System.String")|constructor]. }
  split.
  - inversion Pn as [|? ? ? ? (u & Eu & Nu) _]. exists u. split; [exact (nth_error_In _ _ Eu)|exact Nu].
  - exists (m + i)%nat, ti, x. split; [exact Lt|]. split; [exact Et|]. split; [|split].
    + destruct (nth_error_split _ _ Qx) as (l1 & l2 & El & Ll). exists l1, l2. split; [exact El|].
      pose proof (heap_text_one _ _ _ _ (mas_name _ _ _ _ _ A) Hw) as Nx. split; [exact Nx|].
      intros y Iy Ny. destruct (In_nth_error _ _ Iy) as [z Ez]. destruct (As (q + 1 + z)%nat y) as (r & Rr & Ar).
      { rewrite El, nth_error_app2, Ll by lia. replace (q + 1 + z - q)%nat with (S z) by lia. exact Ez. }
      apply (Lw (td_method_list row' + N.of_nat (q + 1 + z)) r); [lia| |exact Rr|].
      * rewrite Ej. apply (proj1 (Im (q + 1 + z)%nat y)). rewrite El, nth_error_app2, Ll by lia. replace (q + 1 + z - q)%nat with (S z) by lia. exact Ez.
      * rewrite <- Ny. exact (mas_name _ _ _ _ _ Ar).
    + destruct (mas_internal _ _ _ _ _ A Ic) as (b & d & Eb & Nd & B). rewrite Eb. f_equal.
      refine (B sg (bytes_of_string "System.Void") [bytes_of_string "System.String"] _ Os eq_refl _ Sg _ _).
      * now apply (name_simple md PVoid "System.Void").
      * constructor; [now apply (name_simple md PString "System.String")|constructor].
      * rewrite (heap_text_one _ _ _ _ (mas_name _ _ _ _ _ A) Hw). destruct Nd as (u & Eu & <-). destruct Lt as [(u' & Eu' & Nu) _].
        assert (u' = u) as -> by congruence. rewrite Nu. repeat split.
    + unfold arguments. rewrite (mas_static _ _ _ _ _ A), St. apply Forall2_lengths in Pn. rewrite map_length in Pn. rewrite Pn. reflexivity.
Qed.

(** ** C69 *)

(** A program compiled into an image is executed as its meaning says: in any runtime that can print,
    after the image has been loaded and whatever has happened then, the token of row [k] resolves to a
    method, and executing it on integers has the outcome of the function in that row, and no other. *)
Theorem C69_program p fs paths s fuel data md a s1 s2 P ks g f k args :
  history p fs paths s -> read_metadata p data tt = Ok md tt -> program_image md P ks ->
  references_loaded s md -> can_print s ->
  load_data fuel p fs data s = Ok a s1 -> later p fs s1 s2 ->
  nth_error P g = Some f -> nth_error ks g = Some k -> Forall int32 args ->
  exists m, resolve_method p a (0x06000000 + k) s2 = Ok (Some m) s2 /\
    (forall r, does p P (storage (N.of_nat (fn_locals f))) (outset f) (start args (fn_locals f)) (fn_body f) r ->
       exists enough, forall fuel, (enough <= fuel)%nat -> observes s2 r (execute fuel p m (map (VInt I32) args) s2)) /\
    (forall fuel, execute fuel p m (map (VInt I32) args) s2 <> NoFuel ->
       exists r, does p P (storage (N.of_nat (fn_locals f))) (outset f) (start args (fn_locals f)) (fn_body f) r /\
         observes s2 r (execute fuel p m (map (VInt I32) args) s2)).
Proof.
  intros H Em I RL CP E La EF Ek FA. destruct (loaded_program _ _ _ _ _ _ _ _ _ _ _ _ H Em I RL CP E La) as (ms & Cm & FM).
  assert (H2 : history p fs paths s2).
  { destruct H as (f0 & rt & con & s0 & Er & L0). exists f0, rt, con, s0. split; [exact Er|].
    assert (T : forall x y z, later p fs x y -> later p fs y z -> later p fs x z) by (intros x y z X Y; induction Y as [|y s' s'' _ IH Ev]; [exact X|exact (later_then _ _ _ _ _ (IH X) Ev)]).
    eapply T; [|exact La]. eapply later_then; [exact L0|]. eapply ev_load. exact E. }
  destruct (Forall2_nth_error_l _ _ _ _ _ FM Ek) as (m & Mm & Q). exists m. split; [exact Q|]. split.
  - intros r D. eapply C67_outcome; eauto.
  - intros fu N. eapply C67_only_outcomes; eauto.
Qed.

Lemma named_all s s' :
  (sbyte <- named "System.SByte" ;;
   byte <- named "System.Byte" ;;
   short <- named "System.Int16" ;;
   ushort <- named "System.UInt16" ;;
   int <- named "System.Int32" ;;
   uint <- named "System.UInt32" ;;
   long <- named "System.Int64" ;;
   ulong <- named "System.UInt64" ;;
   float <- named "System.Single" ;;
   double <- named "System.Double" ;;
   object <- named "System.Object" ;;
   s <- get_state ;;
   put_state (set_primitives s (mkPrimitives sbyte byte short ushort int uint long ulong float double object))) s = Ok tt s' ->
  c_types s' = c_types s /\ c_assemblies s' = c_assemblies s /\ c_arena s' = c_arena s.
Proof.
  intro E. do 11 (let t := fresh "t" in let X := fresh "X" in let x := fresh "x" in apply bind_inv_ok in E as (t & x & X & E);
    pose proof (pures _ _ _ _ (pure_named _) X) as ->; clear X).
  apply bind_inv_ok in E as (x & y & X & E). injection X as <- <-. injection E as <-. auto.
Qed.

(** The image of the console makes a runtime that can print. *)
Theorem C69_console p fs paths fuel rt con mdc s : read_metadata p con tt = Ok mdc tt -> console_image mdc ->
  new_runtime fuel p fs paths rt con = Ok tt s -> can_print s.
Proof.
  intros Em Ci E. unfold new_runtime in E. apply bind_inv_ok in E as (a1 & s1 & E1 & E). apply bind_inv_ok in E as (a2 & s2 & E2 & E).
  destruct (pres_run_ok _ _ _ _ _ _ _ (load_data_pres p fs fuel rt _) (empty_consistent p paths) E1) as (W1 & _).
  pose proof (console_loaded _ _ _ _ _ _ _ _ W1 Em Ci E2) as CP.
  destruct (named_all _ _ E) as (T & _).
  unfold can_print. rewrite T. exact CP.
Qed.

(** ** C70 *)

(** What the test program is seen to do: its result and all that it has written. *)
Definition seen (r : outcome progress) (e : res vm run_result) : Prop :=
  match r with
  | Normal (Back o _) w => exists s, e = Ok (match o with Some z => RValue (VInt I32 z) | None => RVoid end) s /\ c_output s = w_text w
  | Normal (Onward _) _ | Panics => exists why, e = Panic why
  | Unlaid => True
  end.

(** When the runtime starts and the image loads, the test program does what the function in the row
    before the one that the header of the image gives as entry point does.  Missing from the full
    property: that it is the function in the row itself, see [C70_entry_refuted]. *)
Theorem C70_test_program_partial p fs paths rt con mdr mdc dir file data md P ks g f r fuel0 s a s1 :
  read_metadata p rt tt = Ok mdr tt -> addressable mdr -> well_listed mdr ->
  read_metadata p con tt = Ok mdc tt -> console_image mdc ->
  fs dir file = File data -> read_metadata p data tt = Ok md tt -> program_image md P ks ->
  (forall row n, In row (tb_assembly_ref (m_tables md)) -> heap_text md (ar_name row) n -> assembly_name mdr n \/ assembly_name mdc n) ->
  ch_entry_point (m_cli_header md) = 0x06000000 + r -> 1 <= r < 2 ^ 24 ->
  nth_error ks g = Some (r - 1) -> nth_error P g = Some f ->
  new_runtime fuel0 p fs paths rt con = Ok tt s -> load_path fuel0 p fs (dir, file) s = Ok a s1 ->
  (forall o, does p P (storage (N.of_nat (fn_locals f))) (outset f) (start [] (fn_locals f)) (fn_body f) o ->
     exists enough, forall fuel, (enough <= fuel)%nat -> seen o (test_program fuel p fs paths rt con (Some (dir, file)))) /\
  (forall fuel, test_program fuel p fs paths rt con (Some (dir, file)) <> NoFuel ->
     exists o, does p P (storage (N.of_nat (fn_locals f))) (outset f) (start [] (fn_locals f)) (fn_body f) o /\
       seen o (test_program fuel p fs paths rt con (Some (dir, file)))).
Proof.
  intros Er Ar Lr Ec Ci Ef Em I Rf Ep Br Ek EF En El.
  assert (H : history p fs paths s) by (exists fuel0, rt, con, s; split; [exact En|constructor]).
  pose proof (C69_console _ _ _ _ _ _ _ _ Ec Ci En) as CP.
  unfold load_path in El. cbn [fst snd] in El. rewrite Ef in El.
  assert (RL : references_loaded s md).
  { pose proof En as X. unfold new_runtime in X. apply bind_inv_ok in X as (a1 & x1 & X1 & X). apply bind_inv_ok in X as (a2 & x2 & X2 & X).
    destruct (load_data_run _ _ _ _ _ _ _ _ (empty_consistent p paths) Er Ar Lr X1) as (y1 & b1 & m1 & _ & _ & W1 & _ & A1 & _ & _ & _ & _ & (row1 & R1 & N1) & _).
    destruct (load_data_run _ _ _ _ _ _ _ _ W1 Ec (proj1 Ci) (proj1 (proj2 Ci)) X2) as (y2 & b2 & m2 & _ & V2 & W2 & V2' & A2 & _ & _ & _ & _ & (row2 & R2 & N2) & _).
    destruct (pres_run_ok _ _ _ _ _ _ _ (load_data_pres p fs fuel0 rt _) (empty_consistent p paths) X1) as (_ & _ & _ & l1 & L1).
    destruct (pres_run_ok _ _ _ _ _ _ _ (load_data_pres p fs fuel0 con _) W1 X2) as (_ & V & _ & l2 & L2).
    destruct (named_all _ _ X) as (_ & S2 & S3).
    intros row n In1 Hn. unfold loaded_as. rewrite S2, S3. destruct (Rf _ _ In1 Hn) as [(q & Q & T)|(q & Q & T)].
    - exists a1, b1. split; [rewrite L2, L1; apply in_or_app; left; apply in_or_app; right; apply in_or_app; right; now left|].
      destruct (ev_arena _ _ V) as [z Z]. split; [rewrite Z, nth_error_app1 by exact (nth_lt _ _ _ A1); exact A1|]. rewrite (row_unique _ _ _ _ Q R1) in T. apply string_at_inv in N1. exact (heap_text_one _ _ _ _ N1 T).
    - exists a2, b2. split; [rewrite L2; apply in_or_app; right; apply in_or_app; right; now left|].
      split; [exact A2|]. rewrite (row_unique _ _ _ _ Q R2) in T. apply string_at_inv in N2. exact (heap_text_one _ _ _ _ N2 T). }
  destruct (some_entry _ _ _ _ _ _ _ H Em (proj1 (pr_addressable _ _ _ I)) (pr_listed _ _ _ I) _ _ _ Ep Br El) as (ai & x & Ea & Ex & Rx).
  destruct (C69_program _ _ _ _ _ _ _ _ _ _ _ _ _ _ _ [] H Em I RL CP El (later_now _ _ _) EF Ek (Forall_nil _)) as (m & Rm & O1 & O2).
  assert (m = x) as -> by congruence.
  assert (Out : c_output s1 = []).
  { destruct (history_ok _ _ _ _ H) as (W & _). destruct (new_runtime_ok _ _ _ _ _ _ _ En) as (_ & _ & Os & _).
    destruct (pres_run_ok _ _ _ _ _ _ _ (load_data_pres p fs fuel0 data _) W El) as (_ & V & _). now rewrite (ev_output _ _ V). }
  assert (Run : forall fuel, (fuel0 <= fuel)%nat -> test_program fuel p fs paths rt con (Some (dir, file)) =
    match execute fuel p x [] s1 with Ok y s' => Ok (fst y) s' | Err e s' => Err e s' | Panic w => Panic w | Ub w => Ub w | NoFuel => NoFuel end).
  { intros fuel L. unfold test_program.
    assert (N1 : new_runtime fuel p fs paths rt con = Ok tt s).
    { destruct (refines_new_runtime p fs paths rt con _ _ L s) as [X|X]; rewrite En in X; [discriminate|exact X]. }
    assert (N2 : load_path fuel p fs (dir, file) s = Ok a s1).
    { unfold load_path. cbn [fst snd]. rewrite Ef. destruct (refines_load_data p fs _ _ data L s) as [X|X]; rewrite El in X; [discriminate|exact X]. }
    unfold bind at 1, unwrap_result at 1. rewrite N1. cbv beta iota. unfold bind at 1, unwrap at 1, ret at 1.
    unfold bind at 1, unwrap_result at 1. rewrite N2. cbv beta iota. unfold bind at 1, the_assembly at 1. rewrite Ea. rewrite Ex.
    unfold bind at 1, unwrap at 1, ret at 1. unfold bind, ret. reflexivity. }
  assert (See : forall o fuel, (fuel0 <= fuel)%nat -> observes s1 o (execute fuel p x [] s1) -> seen o (test_program fuel p fs paths rt con (Some (dir, file)))).
  { intros o fuel L Ob. rewrite (Run _ L). destruct o as [[en|v en] w| |]; cbn [observes seen] in *; [destruct Ob as [why ->]; eauto| |destruct Ob as [why ->]; eauto|exact Logic.I].
    rewrite Ob. eexists. split; [reflexivity|]. cbn [set_output c_output]. rewrite Out. reflexivity. }
  split.
  - intros o D. destruct (O1 o D) as [K Ob]. exists (Nat.max K fuel0). intros fuel L. apply See; [lia|]. apply Ob. lia.
  - intros fuel N. assert (L : (fuel <= Nat.max fuel fuel0)%nat) by lia. pose proof (refines_test_program _ _ _ _ _ _ _ _ L N) as Q.
    destruct (O2 (Nat.max fuel fuel0)) as (o & D & Ob).
    { intro X. apply N. rewrite <- Q, Run by lia. cbn [map] in X. rewrite X. reflexivity. }
    exists o. split; [exact D|]. rewrite <- Q. apply See; [lia|exact Ob].
Qed.

(** ** Examples *)

(** The first example application with the token of Main's next row in its header, for the entry point
    to be Main. *)
Definition hello_image : list byte := Eval vm_compute in firstn 372 app_image ++ x04 :: skipn 373 app_image.
Definition hello_md : metadata := ltac:(md_of hello_image).
Definition lab_md : metadata := ltac:(md_of lab_image).
Definition console_md : metadata := ltac:(md_of system_console).
Definition runtime_md : metadata := ltac:(md_of system_runtime).
Lemma hello_md_read p : read_metadata p hello_image tt = Ok hello_md tt.
Proof. destruct p; vm_compute; reflexivity. Qed.
Lemma lab_md_read p : read_metadata p lab_image tt = Ok lab_md tt.
Proof. destruct p; vm_compute; reflexivity. Qed.
Lemma console_md_read p : read_metadata p system_console tt = Ok console_md tt.
Proof. destruct p; vm_compute; reflexivity. Qed.
Lemma runtime_md_read p : read_metadata p system_runtime tt = Ok runtime_md tt.
Proof. destruct p; vm_compute; reflexivity. Qed.

Ltac row_here := split; [vm_compute; discriminate|vm_compute; reflexivity].
Ltac blob_here := split; [apply check_bytes_at; vm_compute; reflexivity|vm_compute; reflexivity].
Ltac image_here := eapply check_image; [reflexivity|vm_compute; reflexivity|vm_compute; reflexivity].
Ltac name_here n ns := match goal with |- row_name _ _ _ ?x => change x with (qualified (bytes_of_string n) (bytes_of_string ns)) end;
  first [eapply in_type_def; [vm_compute; discriminate|vm_compute; reflexivity| |]; text_here | eapply in_type_ref; [vm_compute; discriminate|vm_compute; reflexivity| |]; text_here].

Lemma console_md_console : console_image console_md.
Proof.
  split; [addressable_here|]. split; [listed_here|]. exists 2, 1. eexists. split; [name_here "Console"%string "System"%string|]. split.
  { intros i L X. inversion X as [? d x z K Ed Hx Hz|]; subst. apply nth_lt in Ed. vm_compute List.length in Ed. lia. }
  split. { exists 1. split; [row_here|]. split; [vm_compute; discriminate|]. intros y [_ E]. vm_compute in E. discriminate. }
  split; [row_here|]. split; [text_here|]. split.
  { intros i r L _ [_ E]. apply nth_lt in E. vm_compute List.length in E. lia. }
  split; [reflexivity|]. split; [reflexivity|]. blob_here.
Qed.

(** Main and Deep in the images. *)
Ltac main_image := constructor;
  [split; [addressable_here|vm_compute; reflexivity]
  |listed_here
  |cbn; intros r Q; repeat (destruct Q as [<-|Q]; [reflexivity|]); destruct Q
  |constructor; [|constructor]; eexists; exists [x72; x01; x00; x00; x70; x28; x01; x00; x00; x0a; x2a]; split; [row_here|];
   split; [reflexivity|]; split; [reflexivity|]; split; [reflexivity|]; split; [blob_here|]; split;
   [apply (cc_seq _ _ _ _ _ [x72; x01; x00; x00; x70; x28; x01; x00; x00; x0a] [x2a]); [|now constructor];
    apply (cc_print _ _ _ _ [x01; x00; x00; x70] [x01; x00; x00; x0a]);
    [exists 1, x00; split; [vm_compute; reflexivity|]; split; [reflexivity|]; split; [repeat constructor; unfold scalar; lia|];
     split; [vm_compute; reflexivity|]; apply check_bytes_at; vm_compute; reflexivity
    |exists 1; eexists; split; [vm_compute; reflexivity|]; split; [reflexivity|]; split; [row_here|]; split; [text_here|];
     eexists _, (bytes_of_string "Console"), (bytes_of_string "System"); split; [row_here|]; split; [text_here|]; split; [text_here|reflexivity]]
   |left; split; [reflexivity|]; split; [vm_compute; reflexivity|image_here]]].
Lemma demo_md_main : program_image demo_md [PropsCalls.main] [3].
Proof. main_image. Qed.
Lemma hello_md_main : program_image hello_md [PropsCalls.main] [3].
Proof. main_image. Qed.
Lemma lab_md_deep : program_image lab_md [deep] [9].
Proof.
  constructor.
  - split; [addressable_here|vm_compute; reflexivity].
  - listed_here.
  - cbn. intros r Q. repeat (destruct Q as [<-|Q]; [reflexivity|]). destruct Q.
  - constructor; [|constructor]. eexists. exists [x02; x2d; x02; x16; x2a; x02; x17; x59; x28; x09; x00; x00; x06; x02; x58; x2a]. split; [row_here|].
    split; [reflexivity|]. split; [reflexivity|]. split; [reflexivity|]. split; [blob_here|]. split.
    + apply (cc_seq _ _ _ _ _ [x02; x2d; x02; x16; x2a] [x02; x17; x59; x28; x09; x00; x00; x06; x02; x58; x2a]).
      * apply (cc_if_then _ _ _ _ _ [x02; x2d] 1 [x02] [x16; x2a]); try reflexivity.
        -- apply tc_not. apply (tc_nonzero _ _ _ [x02] x2d 1 false); repeat constructor.
        -- apply (cc_return _ _ _ _ [x16]); repeat constructor.
      * apply (cc_return _ _ _ _ [x02; x17; x59; x28; x09; x00; x00; x06; x02; x58]); [reflexivity|].
        apply (xc_binary _ _ Plus _ _ [x02; x17; x59; x28; x09; x00; x00; x06] [x02] [x58]); [constructor| |repeat constructor].
        apply (xc_call _ _ 0 deep _ [x02; x17; x59] [x09; x00; x00; x06]); try reflexivity.
        -- apply (xc_more _ _ _ _ [x02; x17; x59] []); [|constructor].
           apply (xc_binary _ _ Minus _ _ [x02] [x17] [x59]); repeat constructor.
        -- exists 9. split; reflexivity.
    + left. split; [reflexivity|]. split; [vm_compute; reflexivity|]. image_here.
Qed.
Lemma demo_can_print : can_print demo_vm.
Proof. exact (C69_console Debug _ _ _ _ _ _ _ (console_md_read Debug) console_md_console (demo_vm_started Debug)). Qed.

Lemma references_check s md : forallb (fun row => match string_at md (ar_name row) with Some n => loaded (c_arena s) (c_assemblies s) n | None => false end)
  (tb_assembly_ref (m_tables md)) = true -> references_loaded s md.
Proof.
  intros X row n I T. rewrite forallb_forall in X. specialize (X row I). destruct (string_at md (ar_name row)) as [y|] eqn:Y; [|discriminate].
  apply string_at_inv in Y. rewrite (heap_text_one _ _ _ _ T Y). clear - X. unfold loaded_as. induction (c_assemblies s) as [|a l IH]; [discriminate|].
  cbn [loaded] in X. destruct (nth_error (c_arena s) a) as [[ai|]|] eqn:Q.
  - apply orb_prop in X as [X|X]; [|destruct (IH X) as (b & bi & ? & ? & ?); exists b, bi; split; [now right|auto]].
    exists a, ai. split; [now left|]. split; [exact Q|now apply bytes_eqb_spec].
  - destruct (IH X) as (b & bi & ? & ? & ?); exists b, bi; split; [now right|auto].
  - destruct (IH X) as (b & bi & ? & ? & ?); exists b, bi; split; [now right|auto].
Qed.

Example C69_program_example p : history p no_files [] demo_vm /\ read_metadata p lab_image tt = Ok lab_md tt /\
  program_image lab_md [deep] [9] /\ references_loaded demo_vm lab_md /\ can_print demo_vm /\
  load_data 10 p no_files lab_image demo_vm = Ok 2%nat demo_lab /\ later p no_files demo_lab demo_lab.
Proof.
  split; [apply demo_vm_history|]. split; [apply lab_md_read|]. split; [apply lab_md_deep|]. split; [apply references_check; vm_compute; reflexivity|].
  split; [apply demo_can_print|]. split; [apply demo_lab_loaded|apply later_now].
Qed.
(** The sum of the numbers up to [n] with the token of the image. *)
Example C69_deep p n : (n <= 64)%nat -> exists m, resolve_method p 2%nat 0x06000009 demo_lab = Ok (Some m) demo_lab /\
  exists enough, forall fuel, (enough <= fuel)%nat ->
    execute fuel p m [VInt I32 (Z.of_nat n)] demo_lab =
    Ok (RValue (VInt I32 (Z.of_nat n * (Z.of_nat n + 1) / 2)), [VInt I32 (Z.of_nat n)]) demo_lab.
Proof.
  intro L. destruct (C69_program_example p) as (H & Em & I & RL & CP & E & La).
  destruct (C69_program _ _ _ _ _ _ _ _ _ _ _ _ 0%nat deep 9 [Z.of_nat n] H Em I RL CP E La eq_refl eq_refl) as (m & Rm & O & _).
  { constructor; [unfold int32; lia|constructor]. }
  exists m. split; [exact Rm|]. destruct (deep_does p n ltac:(lia) (outset deep)) as (w' & D & T); [cbn; lia|].
  destruct (O _ D) as [K X]. exists K. intros fuel Lf. specialize (X fuel Lf). cbn [observes] in X. rewrite T in X. cbn [outset w_text] in X.
  rewrite app_nil_r in X. exact X.
Qed.
Example C69_console_example p : read_metadata p system_console tt = Ok console_md tt /\ console_image console_md /\
  new_runtime 10 p no_files [] system_runtime system_console = Ok tt demo_vm.
Proof. split; [apply console_md_read|]. split; [apply console_md_console|apply demo_vm_started]. Qed.

(** A directory with one file in it. *)
Definition only (d : list byte) : file_system := fun dir f => if is_file dir f "." "hello.exe" then File d else Missing.
Definition dot : name := bytes_of_string ".".
Definition hello_exe : name := bytes_of_string "hello.exe".
Definition demo_hello : vm := Eval vm_compute in state_of (load_data 10 Debug (only hello_image) hello_image demo_vm).
Lemma hello_started p d : new_runtime 10 p (only d) [] system_runtime system_console = Ok tt demo_vm.
Proof. destruct p; vm_compute; reflexivity. Qed.
Lemma hello_loaded p : load_path 10 p (only hello_image) (dot, hello_exe) demo_vm = Ok 2%nat demo_hello.
Proof. destruct p; vm_compute; reflexivity. Qed.
Lemma hello_references md : (tb_assembly_ref (m_tables md), m_strings md) = (tb_assembly_ref (m_tables demo_md), m_strings demo_md) ->
  forall row n, In row (tb_assembly_ref (m_tables md)) -> heap_text md (ar_name row) n -> assembly_name runtime_md n \/ assembly_name console_md n.
Proof.
  intros Q row n I T. injection Q as Q1 Q2. unfold heap_text in T. rewrite Q2 in T. rewrite Q1 in I. cbn in I. destruct I as [<-|[<-|[]]].
  - left. eexists. split; [row_here|]. rewrite (heap_text_one demo_md _ n (bytes_of_string "System.Runtime") T) by text_here. text_here.
  - right. eexists. split; [row_here|]. rewrite (heap_text_one demo_md _ n (bytes_of_string "System.Console") T) by text_here. text_here.
Qed.
Lemma runtime_md_fine : addressable runtime_md /\ well_listed runtime_md.
Proof. split; [addressable_here|listed_here]. Qed.

(** The test program prints "hi" and ends with no value. *)
Example C70_hello p : exists enough, forall fuel, (enough <= fuel)%nat -> exists s,
  test_program fuel p (only hello_image) [] system_runtime system_console (Some (dot, hello_exe)) = Ok RVoid s /\ c_output s = [104; 105].
Proof.
  destruct (C70_test_program_partial p (only hello_image) [] system_runtime system_console runtime_md console_md dot hello_exe hello_image hello_md
    [PropsCalls.main] [3] 0 PropsCalls.main 4 10 demo_vm 2%nat demo_hello) as [X _].
  - apply runtime_md_read. - apply runtime_md_fine. - apply runtime_md_fine. - apply console_md_read. - apply console_md_console.
  - reflexivity. - apply hello_md_read. - apply hello_md_main. - apply hello_references. vm_compute. reflexivity.
  - vm_compute. reflexivity. - split; [lia|reflexivity]. - reflexivity. - reflexivity. - apply hello_started. - apply hello_loaded.
  - destruct (X (Normal (Back None (start [] 0)) (after_print (outset PropsCalls.main) [104; 105]))) as [K Y].
    + eapply do_seq; [apply do_print; split; vm_compute; [discriminate|reflexivity]|apply do_return_none].
    + exists K. exact Y.
Qed.

(** But the entry point in the header is not what is run: the header of the application gives the row
    of Main, which would print "hi" and end, and the test program panics. *)
Theorem C70_entry_refuted p : read_metadata p app_image tt = Ok demo_md tt /\ program_image demo_md [PropsCalls.main] [3] /\
  ch_entry_point (m_cli_header demo_md) = 0x06000000 + 3 /\
  (exists w, does p [PropsCalls.main] (storage 0) (outset PropsCalls.main) (start [] 0) (fn_body PropsCalls.main)
     (Normal (Back None (start [] 0)) w) /\ w_text w = [104; 105]) /\
  forall fuel, (100 <= fuel)%nat -> exists why,
    test_program fuel p (only app_image) [] system_runtime system_console (Some (dot, hello_exe)) = Panic why.
Proof.
  split; [apply demo_md_ok|]. split; [apply demo_md_main|]. split; [reflexivity|]. split.
  - eexists. split; [eapply do_seq; [apply do_print; split; vm_compute; [discriminate|reflexivity]|apply do_return_none]|reflexivity].
  - assert (E : exists why, test_program 100 p (only app_image) [] system_runtime system_console (Some (dot, hello_exe)) = Panic why)
      by (eexists; destruct p; vm_compute; reflexivity).
    destruct E as [why E]. intros fuel L. exists why. rewrite <- E. apply refines_test_program; [exact L|]. rewrite E. discriminate.
Qed.

Print Assumptions C69_program.
Print Assumptions C69_console.
Print Assumptions C70_test_program_partial.
Print Assumptions C70_entry_refuted.

(** Code without loops and without recursion comes to an end: C78. *)
From Coq Require Import NArith ZArith Arith String List Bool Lia.
From Coq.Strings Require Import Byte.
From Verif Require Import Base BaseFacts Tables Metadata Utf Runtime Loader Value Opcodes Gc Interp.
From Verif Require Import SpecBytes SpecExec SpecFrames SpecStack SpecRuntime SpecTypes SpecHistory SpecSafety SpecEnds SpecSteps.
From Verif Require Import RuntimeInv InterpFacts FrameFacts StackFacts HistoryProofs EndsFacts StepsFacts.
From Verif Require Import DemoImages DemoStates DemoRuns SpinImages PropsDecode PropsCompare PropsSafety PropsEnds.
Import ListNotations.
Open Scope N_scope.

(** For all runtimes whose types go along with an order (C77), all sets of methods with numbers that go down along their code and their calls, all
    methods of the set and all parameters: a call of the method comes back, with or without an error, unless it
    panics or has undefined behaviour (C73). *)
Theorem C78_ends p fs paths s o top T steps m params fuel :
  history p fs paths s -> vectors s -> order_ok top o -> types_ordered o (c_types s) ->
  goes_down s T steps -> T m -> (steps m 0%N + depth_needed top 0 <= fuel)%nat ->
  ends_in_order o (execute fuel p m params s).
Proof.
  intros H V O To G Hm L. pose proof (orderly_of _ _ _ (proj1 (history_ok _ _ _ _ H)) To) as W.
  unfold ends_in_order, execute. destruct (mt_static m); cbn [negb].
  - pose proof (invoke_ends p top o s O V T steps G fuel m CHost Hm) as E.
    unfold depth_needed in L. specialize (E ltac:(unfold depth; lia) (new_machine s params)).
    assert (K : J o s (new_machine s params)) by (split; [exact W|]; split; [reflexivity|exists []; cbn; now rewrite app_nil_r]).
    specialize (E K). destruct (invoke _ _ _ _) as [[v|] s1|e s1|w|w|]; auto.
    + destruct v; try exact Logic.I; apply ordered_of, (proj1 E).
    + apply ordered_of, (proj1 E).
    + apply ordered_of, E.
  - unfold the_type. destruct (nth_error _ _); [exact To|exact Logic.I].
Qed.

(** The case of code that only branches forward and of calls that go down in rank, with a number of steps that
    can be read off the sizes. *)
Lemma bytes_bound code ip bs : bytes_at code ip bs -> ip + len bs <= len code.
Proof. intros (pre & post & -> & ->). rewrite !len_app. lia. Qed.
Lemma opcodes_not_empty op n : In (op, n) operand_sizes -> 0 < len op.
Proof.
  assert (A : forallb (fun q => 0 <? len (fst q)) operand_sizes = true) by reflexivity.
  rewrite forallb_forall in A. intro H. apply N.ltb_lt. exact (A _ H).
Qed.
Lemma straight_goes_down s T rank size : straight s T rank size ->
  goes_down s T (fun m ip => (rank m * S size + (S size - N.to_nat ip))%nat).
Proof.
  intro S. split.
  - intros m b Hm Ei. exact (proj2 (st_size _ _ _ _ S m b Hm Ei)).
  - intros m b ip ip' Hm Ei A C. apply Nat.add_lt_mono_l. destruct (st_size _ _ _ _ S m b Hm Ei) as (L & _).
    pose proof (st_forward _ _ _ _ S m b Hm Ei) as F.
    assert (Lc : len (b_code b) <= N.of_nat size) by (unfold len; lia).
    destruct C as [op n operand Hn _ _ _ B Ln|i n bs target Hn B Ln E].
    + apply bytes_bound in B. rewrite len_app in B. pose proof (opcodes_not_empty _ _ Hn). lia.
    + pose proof (F _ _ _ _ A Hn B Ln) as D. apply bytes_bound in B. rewrite len_cons in B. lia.
  - intros m b ti ip m' Hm Ei Et A C. destruct (st_call _ _ _ _ S m b ti ip m' Hm Ei Et A C) as [Hm' R]. split; [exact Hm'|].
    destruct (st_size _ _ _ _ S m b Hm Ei) as (L & _). assert (Lc : len (b_code b) <= N.of_nat size) by (unfold len; lia).
    destruct C as (i & bs & _ & B & _). apply bytes_bound in B. rewrite len_cons in B.
    assert (K : (Datatypes.S (rank m') * Datatypes.S size <= rank m * Datatypes.S size)%nat) by (apply Nat.mul_le_mono_r; exact R).
    cbn [Nat.mul] in K. change (N.to_nat 0) with 0%nat. lia.
Qed.
Theorem C78_straight p fs paths s o top T rank size m params fuel :
  history p fs paths s -> vectors s -> order_ok top o -> types_ordered o (c_types s) ->
  straight s T rank size -> T m -> ((rank m + 1) * (size + 1) + depth_needed top 0 <= fuel)%nat ->
  ends_in_order o (execute fuel p m params s).
Proof.
  intros H V O To S Hm L. apply (C78_ends p fs paths s o top T _ m params fuel H V O To (straight_goes_down _ _ _ _ S) Hm).
  change (N.to_nat 0) with 0%nat. lia.
Qed.

(** ** Checking code *)

Definition here (code : list byte) (ip : N) (bs : list byte) : bool := bytes_eqb (sub_list ip (len bs) code) bs.
Lemma here_at code ip bs : bytes_at code ip bs -> here code ip bs = true.
Proof.
  intros (pre & post & -> & ->). unfold here. apply bytes_eqb_spec. apply sub_list_app.
Qed.
Lemma at_split code ip a b : bytes_at code ip (a ++ b) -> bytes_at code ip a /\ b = sub_list (ip + len a) (len b) code.
Proof.
  intros (pre & post & -> & ->). split; [exists pre, (b ++ post); now rewrite <- !app_assoc|].
  rewrite <- len_app. rewrite <- app_assoc, (app_assoc pre a). symmetry. apply sub_list_app.
Qed.
Definition successors (code : list byte) (ip : N) : list N :=
  flat_map (fun q => if here code ip (fst q) && negb (bytes_eqb (fst q) [x2b]) && negb (bytes_eqb (fst q) [x38]) &&
      ((snd q =? 4) || negb (bytes_eqb (fst q) [xfe; x09] || bytes_eqb (fst q) [xfe; x0b]))
    then [ip + len (fst q) + snd q] else []) operand_sizes ++
  flat_map (fun q => if here code ip (fst q)
    then [Z.to_N (Z.of_N ip + 1 + Z.of_N (snd q) + signed_number (sub_list (ip + 1) (snd q) code))] else []) branch_formats.
Definition displacements (code : list byte) (ip : N) : list Z :=
  flat_map (fun q => if here code ip (fst q) then [signed_number (sub_list (ip + 1) (snd q) code)] else []) branch_formats.
Definition tokens (code : list byte) (ip : N) : list N :=
  if here code ip [x28] || here code ip [x73] then [Z.to_N (number (sub_list (ip + 1) 4 code))] else [].
Lemma in_successors code ip ip' : comes_after code ip ip' -> In ip' (successors code ip).
Proof.
  intros [op n operand Hn H4 J1 J2 B L|i n bs target Hn B L E]; unfold successors; apply in_or_app; [left|right].
  - apply in_flat_map. exists (op, n). split; [exact Hn|]. cbn [fst snd]. apply at_split in B as [B _].
    rewrite (here_at _ _ _ B).
    destruct (bytes_eqb op [x2b]) eqn:X1; [apply bytes_eqb_spec in X1; contradiction|].
    destruct (bytes_eqb op [x38]) eqn:X2; [apply bytes_eqb_spec in X2; contradiction|]. cbn [negb andb].
    replace ((n =? 4) || _) with true; [now left|]. symmetry. apply orb_true_iff.
    destruct (bytes_eqb op [xfe; x09] || bytes_eqb op [xfe; x0b]) eqn:X; [left|now right].
    apply N.eqb_eq, H4. apply orb_true_iff in X as [X|X]; apply bytes_eqb_spec in X; auto.
  - apply in_flat_map. exists ([i], n). split; [exact Hn|]. cbn [fst snd]. apply (at_split _ _ [i] bs) in B as [B Eb].
    rewrite (here_at _ _ _ B). left. change (len [i]) with 1 in Eb. rewrite L in Eb. rewrite <- Eb. rewrite <- E. apply N2Z.id.
Qed.
Lemma in_displacements code ip i n bs : In ([i], n) branch_formats -> bytes_at code ip (i :: bs) -> len bs = n ->
  In (signed_number bs) (displacements code ip).
Proof.
  intros Hn B L. apply in_flat_map. exists ([i], n). split; [exact Hn|]. cbn [fst snd]. apply (at_split _ _ [i] bs) in B as [B Eb].
  rewrite (here_at _ _ _ B). left. change (len [i]) with 1 in Eb. rewrite L in Eb. now rewrite <- Eb.
Qed.
Lemma in_tokens s a code ip m : calls_at s a code ip m -> exists tok, In tok (tokens code ip) /\ denotes s a tok m.
Proof.
  intros (i & bs & Hi & B & L & D). exists (Z.to_N (number bs)). split; [|exact D]. unfold tokens.
  apply (at_split _ _ [i] bs) in B as [B Eb]. change (len [i]) with 1 in Eb. replace (len bs) with 4 in Eb by (unfold len; lia).
  rewrite <- Eb. destruct Hi as [-> | ->]; rewrite (here_at _ _ _ B); [|rewrite orb_true_r]; now left.
Qed.
(** A list of addresses that is closed holds all addresses of the code. *)
Definition closed (code : list byte) (l : list N) : bool :=
  existsb (N.eqb 0) l && forallb (fun ip => forallb (fun x => existsb (N.eqb x) l) (successors code ip)) l.
Lemma in_existsb x l : existsb (N.eqb x) l = true -> In x l.
Proof. intro H. apply existsb_exists in H as (y & Hy & E). apply N.eqb_eq in E. now subst y. Qed.
Lemma closed_address code l : closed code l = true -> forall ip, address code ip -> In ip l.
Proof.
  intros C ip A. apply andb_prop in C as [C0 C]. rewrite forallb_forall in C. induction A as [|ip ip' _ IH Ca]; [now apply in_existsb|].
  specialize (C _ IH). rewrite forallb_forall in C. apply in_existsb, C, in_successors, Ca.
Qed.
Definition ahead (code : list byte) (l : list N) : bool :=
  forallb (fun ip => forallb (fun d => 0 <=? d)%Z (displacements code ip)) l.
Lemma ahead_forward code l : closed code l = true -> ahead code l = true -> forward code.
Proof.
  intros C H ip i n bs A Hn B L. apply (closed_address _ _ C) in A. unfold ahead in H. rewrite forallb_forall in H. specialize (H _ A).
  rewrite forallb_forall in H. apply Z.leb_le, H. eapply in_displacements; eauto.
Qed.

(** ** Code that goes on forever *)

(** A branch to itself. *)
Lemma spins p : forall f fr s, code_here fr [x2b; xfe] -> fr_ip fr < 2 ^ 63 -> run f p fr s = NoFuel.
Proof.
  induction f as [|f IH]; intros fr s C I; [reflexivity|]. cbn [run].
  assert (Sn : signed_number [xfe] = (-2)%Z) by reflexivity.
  destruct (C49_jump f p fr s x2b 1 [xfe] ltac:(constructor) C eq_refl) as (fr' & s' & ip & E & (_ & _ & Ec & _ & _ & Ei) & Hip & _).
  { rewrite Sn. cbn [Z.of_nat Pos.of_succ_nat]. lia. }
  rewrite Sn in Hip. rewrite (bind_ok _ _ _ _ _ E). apply IH; [|rewrite Ei; lia]. destruct C as (pre & post & Cc & Ci). exists pre, post. rewrite Ec, Ei. split; [exact Cc|].
  lia.
Qed.
Lemma in_frame_nofuel {A} (m : M machine A) s : m (set_alloc s 0) = NoFuel -> in_frame m s = NoFuel.
Proof. intro E. unfold in_frame. cbv zeta. now rewrite E. Qed.
Lemma enter_nofuel rn m b args s ti ai : mt_impl m = IIL b -> nth_error (c_types (x_vm s)) (mt_declaring m) = Some ti ->
  nth_error (c_arena (x_vm s)) (ti_assembly ti) = Some (Some ai) ->
  (forall loc s', x_vm s' = x_vm s -> x_operands s' = x_operands s -> rn (mkFrame m (ti_assembly ti) (b_code b) 0 loc args) s' = NoFuel) ->
  invoke rn m args s = NoFuel.
Proof.
  intros Ei Et Ea H. unfold invoke. rewrite Ei. unfold bind at 1, on_vm at 1, the_type. rewrite Et.
  unfold bind at 1, on_vm at 1, the_assembly. cbn [x_vm set_vm]. rewrite Ea. apply in_frame_nofuel.
  unfold bind, stackalloc. cbv zeta. apply H; reflexivity.
Qed.
Theorem C78_loop p s m b ti ai params : mt_static m = true -> mt_impl m = IIL b ->
  nth_error (c_types s) (mt_declaring m) = Some ti -> nth_error (c_arena s) (ti_assembly ti) = Some (Some ai) ->
  bytes_at (b_code b) 0 [x2b; xfe] -> forall fuel, execute fuel p m params s = NoFuel.
Proof.
  intros St Ei Et Ea B fuel. unfold execute. rewrite St. cbn [negb].
  rewrite (enter_nofuel _ m b CHost (new_machine s params) ti ai Ei Et Ea); [reflexivity|].
  intros loc s' _ _. apply spins; [exact B|reflexivity].
Qed.

(** A call of the method itself. *)
Lemma falls p m b ti ai bs : mt_impl m = IIL b -> bytes_at (b_code b) 0 (x28 :: bs) -> List.length bs = 4%nat -> arguments m = 0%nat ->
  forall f loc args s, nth_error (c_types (x_vm s)) (mt_declaring m) = Some ti ->
    nth_error (c_arena (x_vm s)) (ti_assembly ti) = Some (Some ai) -> denotes (x_vm s) (ti_assembly ti) (Z.to_N (number bs)) m ->
    run f p (mkFrame m (ti_assembly ti) (b_code b) 0 loc args) s = NoFuel.
Proof.
  intros Ei B Lb Ar. induction f as [|f IH]; intros loc args s Et Ea D; [reflexivity|]. cbn [run].
  destruct (step_call f p (mkFrame m (ti_assembly ti) (b_code b) 0 loc args) s bs m [] (x_operands s) B Lb D eq_refl (eq_sym Ar))
    as (fr' & c & s1 & E & _ & _ & _ & Ev & _).
  rewrite (bind_ok _ _ _ _ _ E). unfold bind at 1.
  rewrite (enter_nofuel _ m b c s1 ti ai Ei); try (rewrite Ev; assumption); [reflexivity|].
  intros loc' s' Ev' _. rewrite Ev in Ev'. apply IH; rewrite Ev'; assumption.
Qed.
Theorem C78_recursion p s m b ti ai bs params : mt_static m = true -> mt_impl m = IIL b -> mt_params m = [] ->
  nth_error (c_types s) (mt_declaring m) = Some ti -> nth_error (c_arena s) (ti_assembly ti) = Some (Some ai) ->
  bytes_at (b_code b) 0 (x28 :: bs) -> List.length bs = 4%nat -> denotes s (ti_assembly ti) (Z.to_N (number bs)) m ->
  forall fuel, execute fuel p m params s = NoFuel.
Proof.
  intros St Ei Mp Et Ea B Lb D fuel. unfold execute. rewrite St. cbn [negb].
  rewrite (enter_nofuel _ m b CHost (new_machine s params) ti ai Ei Et Ea); [reflexivity|].
  intros loc s' Ev _. apply (falls p m b ti ai bs Ei B Lb); try (rewrite Ev; assumption).
  unfold arguments. now rewrite St, Mp.
Qed.

Definition demo_spin : vm := Eval vm_compute in state_of (load_data 10 Debug no_files spin_image demo_vm).
Lemma demo_spin_loaded p : load_data 10 p no_files spin_image demo_vm = Ok 2%nat demo_spin.
Proof. destruct p; vm_compute; reflexivity. Qed.
Lemma demo_spin_history p : history p no_files [] demo_spin.
Proof.
  exists 10%nat, system_runtime, system_console, demo_vm. split; [apply demo_vm_started|].
  eapply later_then; [apply later_now|]. eapply ev_load. apply demo_spin_loaded.
Qed.
Lemma demo_spin_vectors : vectors demo_spin.
Proof. intros a ai E. do 3 (destruct a as [|a]; [injection E as <-; vm_compute; auto 10|]). destruct a; discriminate E. Qed.

(** The other conditions of [C78_ends] hold in both cases. *)
Theorem C78_loop_exists : forall p, exists s m, history p no_files [] s /\ vectors s /\
  order_ok 4%nat zoo_order /\ types_ordered zoo_order (c_types s) /\ mt_static m = true /\
  forall params fuel, execute fuel p m params s = NoFuel.
Proof.
  intro p. exists demo_spin, (method_of demo_spin "Spin"). split; [apply demo_spin_history|]. split; [apply demo_spin_vectors|].
  split; [apply zoo_order_ok|]. split; [apply types_checked; vm_compute; reflexivity|]. split; [reflexivity|]. intros params.
  eapply C78_loop; try (vm_compute; reflexivity). exists [], []. vm_compute. auto.
Qed.
Theorem C78_recursion_exists : forall p, exists s m, history p no_files [] s /\ vectors s /\
  order_ok 4%nat zoo_order /\ types_ordered zoo_order (c_types s) /\ mt_static m = true /\
  (forall b, mt_impl m = IIL b -> forward (b_code b)) /\
  forall params fuel, execute fuel p m params s = NoFuel.
Proof.
  intro p. exists demo_spin, (method_of demo_spin "Fall"). split; [apply demo_spin_history|]. split; [apply demo_spin_vectors|].
  split; [apply zoo_order_ok|]. split; [apply types_checked; vm_compute; reflexivity|]. split; [reflexivity|]. split.
  - intros b E. vm_compute in E. injection E as <-. apply (ahead_forward _ [0; 5; 6]); vm_compute; reflexivity.
  - intros params. eapply (C78_recursion p _ _ _ _ _ [x02; x00; x00; x06]).
    + reflexivity.
    + vm_compute; reflexivity.
    + vm_compute; reflexivity.
    + vm_compute; reflexivity.
    + vm_compute; reflexivity.
    + exists [], [x2a]. vm_compute. auto.
    + reflexivity.
    + eexists. exists 1. split; [reflexivity|]. split; [reflexivity|]. left. split; vm_compute; reflexivity.
Qed.

(** ** Examples *)

(** [Pick] branches forward and calls [Twice]. *)
Definition tidy (m : method_info) : Prop := In m [method_of demo_spin "Pick"; method_of demo_spin "Twice"].
Definition tidy_rank (m : method_info) : nat := if bytes_eqb (mt_name m) (bytes_of_string "Pick") then 1%nat else 0%nat.
Lemma tidy_straight : straight demo_spin tidy tidy_rank 12.
Proof.
  split.
  - intros m b Hm Ei. destruct Hm as [<-|[<-|[]]]; vm_compute in Ei; injection Ei as <-;
      (split; [vm_compute; lia|split; [vm_compute; reflexivity|eexists; reflexivity]]).
  - intros m b Hm Ei. destruct Hm as [<-|[<-|[]]]; vm_compute in Ei; injection Ei as <-.
    + apply (ahead_forward _ [0; 1; 3; 4; 5; 6; 11; 12]); vm_compute; reflexivity.
    + apply (ahead_forward _ [0; 1; 2; 3; 4]); vm_compute; reflexivity.
  - intros m b ti ip m' Hm Ei Et A C. apply in_tokens in C as (tok & Ht & D). apply (denotes_resolve Release) in D.
    destruct Hm as [<-|[<-|[]]]; vm_compute in Ei; injection Ei as <-.
    + apply (closed_address _ [0; 1; 3; 4; 5; 6; 11; 12]) in A; [|vm_compute; reflexivity].
      repeat (destruct A as [<-|A]; [try (vm_compute in Ht; contradiction)|]); [|contradiction].
      vm_compute in Ht. destruct Ht as [<-|[]]. replace m' with (method_of demo_spin "Twice").
      * split; [right; now left|vm_compute; lia].
      * change (nth_error (c_types demo_spin) (mt_declaring (method_of demo_spin "Pick"))) with
          (nth_error (c_types demo_spin) (mt_declaring (method_of demo_spin "Spin"))) in Et.
        assert (Ea : ti_assembly ti = 2%nat) by (injection Et as <-; reflexivity). rewrite Ea in D. clear - D.
        assert (X : resolve_method Release 2%nat (6 * 2 ^ 24 + 4) demo_spin = Ok (Some (method_of demo_spin "Twice")) demo_spin) by (vm_compute; reflexivity).
        change 100663300 with (6 * 2 ^ 24 + 4) in D. rewrite X in D. now injection D.
    + apply (closed_address _ [0; 1; 2; 3; 4]) in A; [|vm_compute; reflexivity].
      repeat (destruct A as [<-|A]; [vm_compute in Ht; contradiction|]). contradiction.
Qed.
Example C78_straight_example : forall p params,
  ends_in_order zoo_order (execute (26 + depth_needed 4 0) p (method_of demo_spin "Pick") params demo_spin).
Proof.
  intros p params. apply (C78_straight p no_files [] demo_spin zoo_order 4%nat tidy tidy_rank 12%nat).
  - apply demo_spin_history.
  - apply demo_spin_vectors.
  - apply zoo_order_ok.
  - apply types_checked; vm_compute; reflexivity.
  - apply tidy_straight.
  - now left.
  - vm_compute. lia.
Qed.
Example C78_ends_example : forall p params,
  ends_in_order zoo_order (execute (26 + depth_needed 4 0) p (method_of demo_spin "Pick") params demo_spin).
Proof.
  intros p params. eapply (C78_ends p no_files [] demo_spin zoo_order 4%nat tidy).
  - apply demo_spin_history.
  - apply demo_spin_vectors.
  - apply zoo_order_ok.
  - apply types_checked; vm_compute; reflexivity.
  - apply straight_goes_down, tidy_straight.
  - now left.
  - vm_compute. lia.
Qed.

Print Assumptions C78_ends.
Print Assumptions C78_straight.
Print Assumptions C78_loop.
Print Assumptions C78_recursion.
Print Assumptions C78_loop_exists.
Print Assumptions C78_recursion_exists.

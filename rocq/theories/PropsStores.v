(** C91: what changes the bytes of the heap. *)
From Coq Require Import NArith ZArith Arith Lia String List Bool.
From Coq.Strings Require Import Byte.
From Verif Require Import Base BaseFacts ParseSpec Metadata Utf Runtime Value Opcodes Gc Interp SpecBytes SpecExec SpecFrames SpecStack SpecRuntime SpecTypes SpecHeap
  SpecHistory SpecSafety SpecAges SpecStores RuntimeInv InterpFacts InterpInv FrameFacts VmFacts TypeFacts HeapFacts FieldFacts CallFacts TraceFacts TraceProps PropsHeap
  SafetyFacts SafetyOps SafetyRuns SafetyCheck AgeFacts PropsSafety PropsAges StoreFacts StoreRuns DemoStates DemoRuns Loader.
From Verif Require Import SpecSafety.
Import ListNotations.
Open Scope N_scope.

(** ** Whatever the execution does *)

(** A byte of the heap has changed only if stfld or stelem.i4 has stored to it. *)
Theorem C91_memory p x t y a n : vectors (x_vm (state_of x)) -> travels p x t y -> spared t a n ->
  forall before bs after, memory (state_of x) = before ++ bs ++ after -> len before = a -> len bs = n ->
  exists before' after', memory (state_of y) = before' ++ bs ++ after' /\ len before' = a.
Proof.
  intros V T Sp before bs after M La Ln.
  assert (Ms : forall j, (List.length before <= j < List.length before + List.length bs)%nat -> missed t j).
  { intros j Lj fr s o d k X St _ Lo. specialize (Sp _ _ _ _ _ X St). unfold clear_of, len in *. lia. }
  assert (K : forall j, (List.length before <= j < List.length before + List.length bs)%nat -> same_at j (state_of x) (state_of y)).
  { intros j Lj. exact (travels_same p x t y j T V (Ms j Lj)). }
  pose proof (travels_longer p x t y T V) as Lo. rewrite M in Lo. rewrite !len_app in Lo. unfold len in *. destruct bs as [|c bs].
  - exists (firstn (List.length before) (memory (state_of y))), (skipn (List.length before) (memory (state_of y))).
    cbn [app]. rewrite firstn_skipn. split; [reflexivity|]. rewrite firstn_length_le; lia.
  - destruct (same_bytes (memory (state_of x)) (memory (state_of y)) before (c :: bs) after M) as (b' & a' & My & Lb); [|discriminate|].
    + intros j Lj. apply (K j Lj). rewrite M, !app_length. lia.
    + exists b', a'. split; [exact My|]. lia.
Qed.

(** Bytes that are in use are never given up. *)
Theorem C91_grows p x t y : vectors (x_vm (state_of x)) -> travels p x t y -> len (memory (state_of x)) <= len (memory (state_of y)).
Proof. intros V T. exact (travels_longer p x t y T V). Qed.

(** Every place that is reached is reached on some way. *)
Theorem C91_ways p x y : reaches p x y <-> exists t, travels p x t y.
Proof.
  split; [|intros [t T]; exact (travels_reaches _ _ _ _ T)].
  intro R. induction R as [x|f fr s fr1 s1 x E R [t T]|f fr s m c r fr1 s1 x E R [t T]|m b c s fr s1 x Im En R [t T]|f fr s m c r fr1 s1 t1 v s2 x E C R [t T]];
    eauto using travels.
Qed.

(** ** Without hazards *)

Lemma same_type p s t t' ti ti' : consistent p s -> len (c_types s) <= 2 ^ 32 -> nth_error (c_types s) t = Some ti -> nth_error (c_types s) t' = Some ti' ->
  ti_id ti = ti_id ti' -> t = t'.
Proof.
  intros W Lt E E' Q. rewrite (ids_ok _ _ W _ _ E), (ids_ok _ _ W _ _ E') in Q. pose proof (nth_lt _ _ _ E) as L1. pose proof (nth_lt _ _ _ E') as L2.
  unfold len in Lt. rewrite !N.mod_small in Q by lia. lia.
Qed.
Lemma same_number n a b bs : encodes n a bs -> encodes n b bs -> a = b.
Proof. intros [_ A] [_ B]. lia. Qed.

Section Sheltered.
  Variables (p : profile) (fs : file_system) (paths : list name) (s : vm) (m : method_info) (params : list value) (x y : place) (t : list moment) (o : obj).
  Hypothesis past : history p fs paths s.
  Hypothesis sizes : vectors s.
  Hypothesis no_hazards : sheltered p m params s.
  Hypothesis before : reaches p (start m params s) x.
  Hypothesis way : travels p x t y.
  Hypothesis usable : at_hand (state_of x) o.

  Lemma few_types : len (c_types (x_vm (state_of x))) <= 2 ^ 32.
  Proof. apply N.nlt_ge. intro X. apply (proj2 no_hazards x before). now apply types_outnumber. Qed.
  Lemma later_types : exists more, c_types (x_vm (state_of y)) = c_types (x_vm (state_of x)) ++ more.
  Proof.
    destruct (blocks_age _ _ _ _ _ _ _ _ past sizes no_hazards before (travels_reaches _ _ _ _ way)) as (bl & bl' & _ & _ & _ & _ & _ & _ & _ & T). exact T.
  Qed.

  (** A field of an object keeps its value unless stfld stores to it by a reference to this very object. *)
  Lemma field_stays f v n k : field_value (state_of x) o f v -> object_bytes (state_of x) o n -> width_of v = Some k -> f_offset f + k <= n ->
    unassigned t o (5 + f_offset f) k -> field_value (state_of y) o f v.
  Proof.
    intros (F0 & (nm & Tn & ti & Et & Nm) & bs & Rp & Sv) (id & t1 & ti1 & So & E1 & I1 & Sz) Wd Fit Un.
    destruct (own_bytes _ _ _ _ _ _ _ _ _ _ past sizes no_hazards before way usable) as (b & Sb & Sh & [W _] & Keep).
    assert (LI : len id = 4) by (unfold len; now rewrite (proj1 I1)).
    assert (Lb : len bs = k).
    { destruct (represents_bytes _ _ Rp) as (Hb & _). apply held_bytes_width in Hb. congruence. }
    assert (LB : len b = 5 + n).
    { destruct Sh as [t' ti' n' id' fields E [Li' Ni'] S L|t' ti' n' length id' eid' l' es Li' E I S El' L|k' id' l' cs' Li' El' L].
      - assert (Q : [x00] ++ id' = [x00] ++ id).
        { apply (stored_prefix (state_of x) o _ fields _ []); [rewrite <- app_assoc; exact Sb|rewrite app_nil_r; exact So|]. rewrite !len_app, LI. unfold len. now rewrite Li'. }
        injection Q as ->. pose proof (same_number _ _ _ _ (conj Li' Ni') I1) as Qi. pose proof (same_type _ _ _ _ _ _ W few_types E E1 Qi) as ->.
        rewrite !len_app, LI, L, (size_unique _ _ _ _ S Sz). change (len [x00]) with 1. lia.
      - pose proof (stored_prefix _ _ [x02] _ [x00] _ Sb So eq_refl) as X. discriminate X.
      - pose proof (stored_prefix _ _ [x04] _ [x00] _ Sb So eq_refl) as X. discriminate X. }
    split; [|split].
    - destruct (object_stays _ _ _ _ _ _ _ _ o past sizes no_hazards before (travels_reaches _ _ _ _ way) t1 usable) as (ti2 & id2 & _ & _ & S2).
      { exists ti1, id. auto. }
      exact (stored_first _ _ _ _ _ S2).
    - exists nm. split; [exact Tn|]. exists ti. split; [|exact Nm]. destruct later_types as [more ->]. rewrite nth_error_app1; [exact Et|exact (nth_lt _ _ _ Et)].
    - exists bs. split; [exact Rp|]. apply Keep; [|exact Sv|lia|now rewrite Lb].
      intros ->. rewrite len_nil in Lb. subst k. destruct v as [[]| | |]; discriminate Wd.
  Qed.

  (** An element of an array keeps its value unless stelem.i4 stores to it by a reference to this very array. *)
  Lemma element_stays i v : element_value (state_of x) o i v -> unassigned t o (17 + 4 * i) 4 -> element_value (state_of y) o i v.
  Proof.
    intros (t1 & n & bs & Nm & Ar & Li & Rp & Sv) Un.
    destruct (own_bytes _ _ _ _ _ _ _ _ _ _ past sizes no_hazards before way usable) as (b & Sb & Sh & [W _] & Keep).
    assert (Lb : len bs = 4) by exact (proj1 (proj2 (represents_bytes _ _ Rp))).
    pose proof (array_stays _ _ _ _ _ _ _ _ o past sizes no_hazards before (travels_reaches _ _ _ _ way) t1 n usable Ar) as Ary.
    destruct Ar as (ti1 & id & eid & l & E1 & Lid & I1 & El & Sa).
    assert (LB : 17 + 4 * n <= len b).
    { destruct Sh as [t' ti' n' id' fields E [Li' Ni'] S L|t' ti' n' length id' eid' l' es Li' E I S El' L|k' id' l' cs' Li' El' L].
      - pose proof (stored_prefix _ _ [x00] _ [x02] _ Sb Sa eq_refl) as X. discriminate X.
      - assert (Q : [x02] ++ id' ++ eid' ++ l' = [x02] ++ id ++ eid ++ l).
        { apply (stored_prefix (state_of x) o _ es _ []); [rewrite <- !app_assoc; exact Sb|rewrite app_nil_r; exact Sa|].
          rewrite !len_app. unfold len. rewrite Lid, Li', (proj1 I1), (proj1 El), (proj1 I), (proj1 El'). reflexivity. }
        apply (app_inv_head [x02]) in Q. apply split_same in Q as [-> Q]; [|congruence]. apply split_same in Q as [-> ->]; [|destruct I, I1; congruence].
        pose proof (same_number _ _ _ _ I I1) as Qi. pose proof (same_type _ _ _ _ _ _ W few_types E E1 Qi) as ->.
        pose proof (same_number _ _ _ _ El' El) as ->.
        assert (n' = 4) as ->.
        { apply (size_unique _ _ _ _ S). apply size_primitive. exact (number_width _ _ (VInt I32 0) int_type eq_refl Nm). }
        rewrite !len_app, L. unfold len. rewrite Lid, (proj1 I1), (proj1 El). cbn [List.length]. lia.
      - pose proof (stored_prefix _ _ [x04] _ [x02] _ Sb Sa eq_refl) as X. discriminate X. }
    exists t1, n, bs. split; [|split; [exact Ary|split; [exact Li|split; [exact Rp|]]]].
    - destruct Nm as (ti & Et & Nm). exists ti. split; [|exact Nm]. destruct later_types as [more ->]. rewrite nth_error_app1; [exact Et|exact (nth_lt _ _ _ Et)].
    - apply Keep; [|exact Sv|lia|now rewrite Lb]. intros ->. discriminate Lb.
  Qed.
End Sheltered.

(** A field of an object keeps its value unless stfld stores to it by a reference to this very object. *)
Theorem C91_field : forall p fs paths s m params x y t o f v n k, history p fs paths s -> vectors s -> sheltered p m params s ->
  reaches p (start m params s) x -> travels p x t y -> at_hand (state_of x) o ->
  field_value (state_of x) o f v -> object_bytes (state_of x) o n -> width_of v = Some k -> f_offset f + k <= n ->
  unassigned t o (5 + f_offset f) k -> field_value (state_of y) o f v.
Proof. intros. eapply field_stays; eassumption. Qed.
(** An element of an array keeps its value unless stelem.i4 stores to it by a reference to this very array. *)
Theorem C91_element : forall p fs paths s m params x y t o i v, history p fs paths s -> vectors s -> sheltered p m params s ->
  reaches p (start m params s) x -> travels p x t y -> at_hand (state_of x) o ->
  element_value (state_of x) o i v -> unassigned t o (17 + 4 * i) 4 -> element_value (state_of y) o i v.
Proof. intros. eapply element_stays; eassumption. Qed.

(** ** Examples *)

Lemma stores_code fr s o d k : stores fr s o d k ->
  nth_error (fr_code fr) (N.to_nat (fr_ip fr)) = Some x7d \/ nth_error (fr_code fr) (N.to_nat (fr_ip fr)) = Some x9e.
Proof.
  assert (H : forall c rest, instruction fr (c :: rest) -> nth_error (fr_code fr) (N.to_nat (fr_ip fr)) = Some c).
  { intros c rest (a & b & -> & ->). unfold len. rewrite Nat2N.id, nth_error_app2, Nat.sub_diag by lia. reflexivity. }
  intros [tok f v rest k0 I L D O W|x i rest I O]; [left|right]; exact (H _ _ I).
Qed.
(** The instruction at hand is another one. *)
Definition other_code (fr : frame) : bool :=
  match nth_error (fr_code fr) (N.to_nat (fr_ip fr)) with Some x7d | Some x9e => false | _ => true end.
Lemma not_stores fr s o d k : other_code fr = true -> ~ stores fr s o d k.
Proof. unfold other_code. intros E H. destruct (stores_code _ _ _ _ _ H) as [X|X]; rewrite X in E; discriminate E. Qed.

(** Set of the demonstration image creates an array of 5 numbers and stores 77 at 2; the number at 3 stays. *)
Example C91_element_ex p : sheltered p (lab "Set") (ints [5; 2; 77; 2]%Z) demo_lab /\ exists x t y o,
  reaches p (start (lab "Set") (ints [5; 2; 77; 2]%Z) demo_lab) x /\ travels p x t y /\ at_hand (state_of x) o /\
  element_value (state_of x) o 3 0 /\ unassigned t o (17 + 4 * 3) 4 /\ memory (state_of y) <> memory (state_of x) /\
  vectors (x_vm (state_of x)) /\ spared t 0 17 /\ 17 <= len (memory (state_of x)).
Proof.
  split; [split; [apply ints_numbers|exact (C73_ex_set p)]|].
  assert (C : exists b fr0 s0 fr1 s1 fr2 s2 fr3 s3 fr4 s4 fr5 s5 fr6 s6 fr7 s7 ti,
    mt_impl (lab "Set") = IIL b /\ entered (lab "Set") b CHost (new_machine demo_lab (ints [5; 2; 77; 2]%Z)) = Some (fr0, s0) /\
    step 20 p fr0 s0 = Ok (ONext fr1) s1 /\ step 20 p fr1 s1 = Ok (ONext fr2) s2 /\ step 20 p fr2 s2 = Ok (ONext fr3) s3 /\
    step 20 p fr3 s3 = Ok (ONext fr4) s4 /\ step 20 p fr4 s4 = Ok (ONext fr5) s5 /\ step 20 p fr5 s5 = Ok (ONext fr6) s6 /\
    step 20 p fr6 s6 = Ok (ONext fr7) s7 /\
    x_operands s2 = [VObject (mkObj 0 0)] /\ h_gen (x_heap s2) = 0%nat /\ nth_error (c_types (x_vm s2)) int_ref = Some ti /\ ti_id ti = 10 /\
    ti_full_name ti = bytes_of_string "System.Int32" /\
    other_code fr2 = true /\ other_code fr3 = true /\ other_code fr4 = true /\ other_code fr5 = true /\
    nth_error (fr_code fr6) (N.to_nat (fr_ip fr6)) = Some x9e /\
    (exists l, x_operands s6 = VInt I32 77 :: VInt I32 2 :: l) /\ c_arena (x_vm s2) = c_arena demo_lab /\
    (exists i0 a rest, memory s2 = [x02] ++ [i0; x00; x00; x00] ++ [x0a; x00; x00; x00] ++ [x05; x00; x00; x00; x00; x00; x00; x00] ++ a ++ [x00; x00; x00; x00] ++ rest /\ len a = 12) /\
    memory s7 <> memory s2).
  { do 18 eexists. split; [reflexivity|].
    destruct p; (do 18 (split; [vm_compute; reflexivity|]); split; [eexists; vm_compute; reflexivity|]; split; [vm_compute; reflexivity|]; split;
      [exists x18, (repeat x00 12), (repeat x00 4); split; vm_compute; reflexivity|vm_compute; discriminate]). }
  destruct C as (b & fr0 & s0 & fr1 & s1 & fr2 & s2 & fr3 & s3 & fr4 & s4 & fr5 & s5 & fr6 & s6 & fr7 & s7 & ti &
    Ib & E0 & E1 & E2 & E3 & E4 & E5 & E6 & E7 & O & G & Et & Ti & Tn & N2 & N3 & N4 & N5 & N6 & (l6 & O6) & V2 & (i0 & a & rest & M & La) & Ne).
  exists (InFrame fr2 s2), [At fr2 s2; At fr3 s3; At fr4 s4; At fr5 s5; At fr6 s6], (InFrame fr7 s7), (mkObj 0 0).
  split; [eapply into_call; [exact Ib|apply enters_entered; exact E0|]; do 2 (eapply past_instruction; [eassumption|]); apply reached|].
  split; [do 5 (eapply travels_instruction; [eassumption|]); apply travels_none|].
  split; [left; cbn [state_of]; rewrite O; now left|].
  assert (Only : forall fr s o d k, In (At fr s) [At fr2 s2; At fr3 s3; At fr4 s4; At fr5 s5; At fr6 s6] -> stores fr s o d k -> d = 25 /\ k = 4).
  { intros fr s o d k [X|[X|[X|[X|[X|[]]]]]] St; injection X as <- <-; try (exfalso; refine (not_stores _ _ _ _ _ _ St); assumption).
    destruct St as [tok f v r k0 I L D Os Wd|v i r I Os]; [exfalso|].
    + destruct (stores_code _ _ _ _ _ (stores_field _ _ _ _ _ _ _ _ I L D Os Wd)) as [X|X]; [congruence|].
      destruct I as (u & w & Ec & Ei). rewrite Ec, Ei in X. unfold len in X. rewrite Nat2N.id, nth_error_app2, Nat.sub_diag in X by lia. discriminate X.
    + rewrite O6 in Os. injection Os as _ <- _. split; reflexivity. }
  split; [|split; [|split; [exact Ne|split; [|split]]]].
  - exists int_ref, 5, [x00; x00; x00; x00]. split; [exists ti; auto|]. split; [|split; [lia|split; [apply signed_bytes; reflexivity|]]].
    + exists ti, [i0; x00; x00; x00], [x0a; x00; x00; x00], [x05; x00; x00; x00; x00; x00; x00; x00].
      split; [exact Et|]. split; [reflexivity|]. split; [rewrite Ti; split; reflexivity|]. split; [split; reflexivity|].
      split; [cbn; congruence|]. exists [], (a ++ [x00; x00; x00; x00] ++ rest). cbn [state_of]. rewrite M. split; reflexivity.
    + split; [cbn; congruence|].
      exists ([x02] ++ [i0; x00; x00; x00] ++ [x0a; x00; x00; x00] ++ [x05; x00; x00; x00; x00; x00; x00; x00] ++ a), rest.
      cbn [state_of]. rewrite M, <- !app_assoc. split; [reflexivity|]. rewrite !len_app, La. reflexivity.
  - intros fr s d k X St. destruct (Only _ _ _ _ _ X St) as [-> ->]. right. vm_compute. discriminate.
  - exact (vectors_same _ _ V2 lab_vectors).
  - intros fr s o d k X St. destruct (Only _ _ _ _ _ X St) as [-> ->]. left. lia.
  - cbn [state_of]. rewrite M, !len_app, La. unfold len. cbn [List.length]. lia.
Qed.

(** MakeX creates an object and calls its constructor, which stores to x; the fields s and t stay. *)
Example C91_field_ex p : sheltered p (lab "MakeX") (ints [10; 3]%Z) demo_lab /\ exists x t y o,
  reaches p (start (lab "MakeX") (ints [10; 3]%Z) demo_lab) x /\ travels p x t y /\ at_hand (state_of x) o /\
  field_value (state_of x) o (lab_field 3) (VInt I16 0) /\ object_bytes (state_of x) o 16 /\ f_offset (lab_field 3) + 2 <= 16 /\
  unassigned t o (5 + f_offset (lab_field 3)) 2 /\ memory (state_of y) <> memory (state_of x).
Proof.
  split; [split; [apply ints_numbers|exact (C73_ex_make p)]|].
  assert (C : exists fr0 s0 fr1 s1 fr2 s2 m c r fr3 s3 fr4 s4 fr5 s5 fr6 s6 fr7 s7 fr8 s8 fr9 s9 b b1 ti ti3,
    mt_impl (lab "MakeX") = IIL b /\ entered (lab "MakeX") b CHost (new_machine demo_lab (ints [10; 3]%Z)) = Some (fr0, s0) /\
    step 20 p fr0 s0 = Ok (ONext fr1) s1 /\ step 20 p fr1 s1 = Ok (ONext fr2) s2 /\ step 20 p fr2 s2 = Ok (OCall m c r fr3) s3 /\
    mt_impl m = IIL b1 /\ entered m b1 c s3 = Some (fr4, s4) /\
    step 20 p fr4 s4 = Ok (ONext fr5) s5 /\ step 20 p fr5 s5 = Ok (ONext fr6) s6 /\ step 20 p fr6 s6 = Ok (ONext fr7) s7 /\
    step 20 p fr7 s7 = Ok (ONext fr8) s8 /\ step 20 p fr8 s8 = Ok (ONext fr9) s9 /\
    nth_error (k_cells (x_frames s3)) 0 = Some (VObject (mkObj 0 0)) /\ h_gen (x_heap s3) = 0%nat /\
    nth_error (c_types (x_vm s3)) box_type = Some ti /\ ti_id ti = 22 /\
    nth_error (c_types (x_vm s3)) (f_type (lab_field 3)) = Some ti3 /\ ti_full_name ti3 = bytes_of_string "System.Int16" /\
    x_vm s3 = demo_lab /\ x_vm s8 = demo_lab /\ fr_assembly fr8 = 2%nat /\
    other_code fr4 = true /\ other_code fr5 = true /\ other_code fr6 = true /\ other_code fr7 = true /\
    (exists z, skipn (N.to_nat (fr_ip fr8)) (fr_code fr8) = [x7d; x01; x00; x00; x04] ++ z) /\
    (exists v l, x_operands s8 = VInt I32 v :: l) /\
    (exists a, memory s3 = [x00] ++ [x16; x00; x00; x00] ++ a ++ [x00; x00] /\ len a = 14) /\ memory s9 <> memory s3).
  { do 27 eexists. split; [reflexivity|]. destruct p; (do 24 (split; [vm_compute; reflexivity|]); split; [eexists; vm_compute; reflexivity|];
      split; [eexists _, _; vm_compute; reflexivity|]; split; [exists (repeat x00 14); split; vm_compute; reflexivity|vm_compute; discriminate]). }
  destruct C as (fr0 & s0 & fr1 & s1 & fr2 & s2 & m & c & r & fr3 & s3 & fr4 & s4 & fr5 & s5 & fr6 & s6 & fr7 & s7 & fr8 & s8 & fr9 & s9 & b & b1 & ti & ti3 &
    Ib & E0 & E1 & E2 & E3 & Ib1 & E4 & E5 & E6 & E7 & E8 & E9 & O & G & Et & Ti & Et3 & Tn & V3 & V8 & A8 & N4 & N5 & N6 & N7 & (z & Z8) & (v8 & l8 & O8) & (a & M & La) & Ne).
  exists (Calling m c s3), [At fr4 s4; At fr5 s5; At fr6 s6; At fr7 s7; At fr8 s8], (InFrame fr9 s9), (mkObj 0 0).
  split; [eapply into_call; [exact Ib|apply enters_entered; exact E0|]; do 2 (eapply past_instruction; [eassumption|]); eapply to_call; [exact E3|]; apply reached|].
  split; [eapply travels_into_call; [exact Ib1|apply enters_entered; exact E4|]; do 5 (eapply travels_instruction; [eassumption|]); apply travels_none|].
  split; [right; left; exact (nth_error_In _ _ O)|]. cbn [state_of].
  assert (F3 : f_offset (lab_field 3) = 14) by (vm_compute; reflexivity). rewrite F3.
  split; [|split; [|split; [vm_compute; discriminate|split; [|exact Ne]]]].
  - split; [split; [cbn; congruence|]; exists [], ([x16; x00; x00; x00] ++ a ++ [x00; x00]); rewrite M; split; reflexivity|].
    split; [exists (bytes_of_string "System.Int16"); split; [reflexivity|]; exists ti3; auto|].
    exists [x00; x00]. split; [apply signed_bytes; reflexivity|]. split; [cbn; congruence|].
    exists ([x00] ++ [x16; x00; x00; x00] ++ a), []. rewrite M, <- !app_assoc. split; [reflexivity|]. rewrite !len_app, La, F3. reflexivity.
  - exists [x16; x00; x00; x00], box_type, ti. split; [split; [cbn; congruence|]; exists [], (a ++ [x00; x00]); rewrite M; split; reflexivity|].
    split; [exact Et|]. split; [rewrite Ti; split; reflexivity|]. rewrite V3, <- (lab_vm p). apply box_size.
  - intros fr s d k [X|[X|[X|[X|[X|[]]]]]] St; injection X as <- <-; try (exfalso; refine (not_stores _ _ _ _ _ _ St); assumption).
    destruct St as [tok f v r0 k0 I L D Os Wd|v i r0 I Os].
    + destruct I as (u & w & Ec & Ei). rewrite Ec, Ei in Z8. unfold len in Z8. rewrite Nat2N.id, skipn_app, skipn_all, Nat.sub_diag in Z8. cbn [skipn app] in Z8.
      injection Z8 as Z8. destruct tok as [|t0 [|t1 [|t2 [|t3 [|]]]]]; try discriminate L. injection Z8 as -> -> -> -> _.
      rewrite V8, A8 in D. change (Z.to_N (number [x01; x00; x00; x04])) with (4 * 2 ^ 24 + (N.of_nat 0 + 1)) in D.
      destruct (lab_token 0 ltac:(lia)) as (ai & r1 & Ea & Lr & Er & Ef). destruct D as (ai' & r' & Ea' & Lr' & Er' & Ef').
      assert (ai' = ai) as -> by congruence. assert (r' = r1) as -> by lia. assert (f = lab_field 0) as -> by congruence.
      rewrite O8 in Os. injection Os as <- _. cbn [width_of] in Wd. injection Wd as <-. right. vm_compute. discriminate.
    + destruct I as (u & w & Ec & Ei). rewrite Ec, Ei in Z8. unfold len in Z8. rewrite Nat2N.id, skipn_app, skipn_all, Nat.sub_diag in Z8. discriminate Z8.
Qed.

Print Assumptions C91_memory.
Print Assumptions C91_grows.
Print Assumptions C91_ways.
Print Assumptions C91_field.
Print Assumptions C91_element.

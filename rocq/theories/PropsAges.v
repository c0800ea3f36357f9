(** C89: what objects are does not change. *)
From Coq Require Import NArith ZArith Arith Lia String List Bool.
From Coq.Strings Require Import Byte.
From Verif Require Import Base BaseFacts ParseSpec Metadata Utf Runtime Value Opcodes Gc Interp SpecBytes SpecExec SpecFrames SpecStack SpecRuntime SpecTypes SpecHeap
  SpecHistory SpecSafety SpecAges RuntimeInv InterpFacts InterpInv FrameFacts VmFacts HeapFacts FieldFacts CallFacts TraceFacts TraceProps PropsHeap SafetyFacts SafetyOps SafetyRuns
  SafetyCheck AgeFacts PropsSafety DemoStates DemoRuns Loader.
From Verif Require Import SpecSafety.
Import ListNotations.
Open Scope N_scope.

(** ** Lemmas *)

Lemma shape_starts ts b : shape ts b -> exists fl id rest, b = [fl] ++ id ++ rest /\ len id = 4.
Proof.
  intros [t ti n id fields E [Li _] S L|t ti n length id eid l es Li E I S El L|k id l cs Li El L]; do 3 eexists; (split; [reflexivity|]);
    unfold len; rewrite Li; reflexivity.
Qed.
(** The block at a reference, before and after. *)
Lemma block_later p fs paths s m params x y o : history p fs paths s -> vectors s -> sheltered p m params s ->
  reaches p (start m params s) x -> reaches p x y -> at_hand (state_of x) o ->
  exists b b', stored (state_of x) o 0 b /\ shape (c_types (x_vm (state_of x))) b /\ stored (state_of y) o 0 b' /\ aged b b' /\
    exists more, c_types (x_vm (state_of y)) = c_types (x_vm (state_of x)) ++ more.
Proof.
  intros H V Sh Rx Ry Ho. destruct (blocks_age _ _ _ _ _ _ _ _ H V Sh Rx Ry) as (bl & bl' & Mx & My & Gx & Gy & F & Pt & Ag & T).
  destruct (Pt _ Ho) as (Go & i & Hi & O). destruct (nth_error bl i) as [b|] eqn:E; [|apply nth_error_None in E; lia].
  destruct (ages_at _ _ _ _ Ag E) as (b' & E' & A' & L'). exists b, b'.
  split; [exact (block_at _ _ _ Mx Gx i b E Go O)|]. split; [rewrite Forall_forall in F; exact (F _ (nth_error_In _ _ E))|].
  split; [|auto]. apply (block_at _ _ _ My Gy i b' E' Go). congruence.
Qed.
Lemma stored_prefix s o a b c d : stored s o 0 (a ++ b) -> stored s o 0 (c ++ d) -> len a = len c -> a = c.
Proof. intros A C L. exact (stored_unique _ _ _ _ _ (stored_first _ _ _ _ _ A) (stored_first _ _ _ _ _ C) L). Qed.

(** ** What holds without hazards *)

Section Sheltered.
  Variables (p : profile) (fs : file_system) (paths : list name) (s : vm) (m : method_info) (params : list value) (x y : place) (o : obj).
  Hypothesis past : history p fs paths s.
  Hypothesis sizes : vectors s.
  Hypothesis no_hazards : sheltered p m params s.
  Hypothesis before : reaches p (start m params s) x.
  Hypothesis after : reaches p x y.

  (** The text of a string does not change ... *)
  Lemma text_stays text : at_hand (state_of x) o -> string_value (state_of x) o text -> string_value (state_of y) o text.
  Proof.
    intros Ho (id & l & cs & Li & El & Cs & St). destruct (block_later _ _ _ _ _ _ _ _ _ past sizes no_hazards before after Ho) as (b & b' & Sb & Sh & Sb' & Ag & _).
    exists id, l, cs. split; [exact Li|]. split; [exact El|]. split; [exact Cs|].
    assert (E : b = [x04] ++ id ++ l ++ concat cs).
    { destruct Sh as [t ti n id' fields E [Li' _] S L|t ti n length id' eid l' es Li' E I S El' L|k id' l' cs' Li' El' L].
      - pose proof (stored_prefix _ _ _ _ _ _ Sb St eq_refl) as X. discriminate X.
      - pose proof (stored_prefix _ _ _ _ _ _ Sb St eq_refl) as X. discriminate X.
      - assert (K : l' = l).
        { pose proof (stored_prefix (state_of x) o ([x04] ++ id' ++ l') cs' ([x04] ++ id ++ l) (concat cs)) as X. rewrite <- !app_assoc in X.
          assert (Q : [x04] ++ id' ++ l' = [x04] ++ id ++ l).
          { apply X; auto. rewrite !len_app. unfold len. rewrite Li, Li', (proj1 El), (proj1 El'). reflexivity. }
          apply (app_inv_head [x04]) in Q. apply split_same in Q as [_ Q]; [exact Q|congruence]. }
        subst l'. apply (stored_unique _ _ _ _ _ Sb St). rewrite !len_app. destruct El as [_ N], El' as [_ N'].
        rewrite L, (len_encoded _ _ Cs). unfold len at 2 5. rewrite Li, Li'. assert (k = len text) as -> by lia. lia. }
    subst b. clear - Ag Sb'. inversion Ag; subst. exact Sb'.
  Qed.

  (** ... nor the type of the elements and the length of an array ... *)
  Lemma array_stays t n : at_hand (state_of x) o -> is_array (state_of x) o t n -> is_array (state_of y) o t n.
  Proof.
    intros Ho (ti & id & eid & l & Et & Li & Ee & El & St).
    destruct (block_later _ _ _ _ _ _ _ _ _ past sizes no_hazards before after Ho) as (b & b' & Sb & Sh & Sb' & Ag & more & T).
    exists ti, id, eid, l. split; [rewrite T, nth_error_app1; [exact Et|exact (nth_lt _ _ _ Et)]|]. split; [exact Li|]. split; [exact Ee|]. split; [exact El|].
    assert (LH : len (id ++ eid ++ l) = 16) by (rewrite !len_app; unfold len; rewrite Li, (proj1 Ee), (proj1 El); reflexivity).
    assert (B : exists es, b = [x02] ++ (id ++ eid ++ l) ++ es).
    { destruct Sh as [t' ti' n' id' fields E [Li' _] S L|t' ti' n' length id' eid' l' es Li' E I S El' L|k id' l' cs' Li' El' L].
      - pose proof (stored_prefix _ _ _ _ _ _ Sb St eq_refl) as X. discriminate X.
      - exists es.
        assert (Q : [x02] ++ id' ++ eid' ++ l' = [x02] ++ id ++ eid ++ l).
        { apply (stored_prefix (state_of x) o _ es _ []); [rewrite <- !app_assoc; exact Sb|rewrite app_nil_r; exact St|].
          rewrite !len_app. unfold len. rewrite Li, Li', (proj1 Ee), (proj1 El), (proj1 I), (proj1 El'). reflexivity. }
        replace ([x02] ++ id' ++ eid' ++ l' ++ es) with (([x02] ++ id' ++ eid' ++ l') ++ es) by (rewrite <- !app_assoc; reflexivity).
        rewrite Q, <- !app_assoc. reflexivity.
      - pose proof (stored_prefix _ _ _ _ _ _ Sb St eq_refl) as X. discriminate X. }
    destruct B as (es & ->). assert (B' : exists es', b' = [x02] ++ (id ++ eid ++ l) ++ es').
    { clear - Ag LH. inversion Ag as [b E1 E2|id2 g g' Li2 Lg E1 E2|hd g g' Lh Lg E1 E2]; subst; [eauto|].
      apply split_same in E1 as [-> _]; [eauto|unfold len in *; lia]. }
    destruct B' as (es' & ->). apply (stored_first _ _ _ _ es'). rewrite <- !app_assoc in *. exact Sb'.
  Qed.

  (** ... nor the type of an object ... *)
  Lemma object_stays t : at_hand (state_of x) o -> is_object (state_of x) o t -> is_object (state_of y) o t.
  Proof.
    intros Ho (ti & id & Et & Ei & St).
    destruct (block_later _ _ _ _ _ _ _ _ _ past sizes no_hazards before after Ho) as (b & b' & Sb & Sh & Sb' & Ag & more & T).
    exists ti, id. split; [rewrite T, nth_error_app1; [exact Et|exact (nth_lt _ _ _ Et)]|]. split; [exact Ei|].
    assert (LI : len id = 4) by (unfold len; now rewrite (proj1 Ei)).
    assert (B : exists fields, b = [x00] ++ id ++ fields).
    { destruct (shape_starts _ _ Sh) as (fl & id' & fields & -> & L'). exists fields.
      assert (Q : [fl] ++ id' = [x00] ++ id).
      { apply (stored_prefix (state_of x) o _ fields _ []); [rewrite <- !app_assoc; exact Sb|rewrite app_nil_r; exact St|].
        rewrite !len_app, LI, L'. reflexivity. }
      injection Q as -> ->. reflexivity. }
    destruct B as (fields & ->). assert (B' : exists fields', b' = [x00] ++ id ++ fields').
    { clear - Ag LI. inversion Ag as [b E1 E2|id2 g g' Li2 Lg E1 E2|hd g g' Lh Lg E1 E2]; subst; [eauto|].
      apply split_same in E1 as [-> _]; [eauto|unfold len in *; lia]. }
    destruct B' as (fields' & ->). apply (stored_first _ _ _ _ fields'). rewrite <- !app_assoc in *. exact Sb'.
  Qed.

  (** ... and no object is ever removed: the heap stays where it is and only grows. *)
  Lemma heap_stays : len (memory (state_of x)) <= len (memory (state_of y)) /\
    h_gen (x_heap (state_of y)) = h_gen (x_heap (state_of x)).
  Proof.
    destruct (blocks_age _ _ _ _ _ _ _ _ past sizes no_hazards before after) as (bl & bl' & Mx & My & Gx & Gy & F & Pt & Ag & T).
    split; [|congruence]. rewrite Mx, My. destruct Ag as (l & new & -> & Fa). rewrite concat_app, len_app.
    assert (E : len (concat l) = len (concat bl)); [|lia].
    clear - Fa. induction Fa as [|b b' bl l A _ IH]; [reflexivity|]. cbn [concat]. rewrite !len_app, IH, (aged_len _ _ A). reflexivity.
  Qed.

  (** Every reference that the program can use is to an object, an array or a string. *)
  Lemma reference_good : at_hand (state_of x) o ->
    (exists t, is_object (state_of x) o t) \/ (exists t n, is_array (state_of x) o t n) \/
    (exists id l cs n, List.length id = 4%nat /\ encodes 8 n l /\ len cs = 2 * n /\ stored (state_of x) o 0 ([x04] ++ id ++ l ++ cs)).
  Proof.
    intro Ho. destruct (block_later _ _ _ _ _ _ _ _ _ past sizes no_hazards before (reached p x) Ho) as (b & _ & Sb & Sh & _).
    destruct Sh as [t ti n id fields E I S L|t ti n length id eid l es Li E I S El L|k id l cs Li El L].
    - left. exists t, ti, id. split; [exact E|]. split; [exact I|]. apply (stored_first _ _ _ _ fields). rewrite <- app_assoc. exact Sb.
    - right. left. exists t, length, ti, id, eid, l. split; [exact E|]. split; [exact Li|]. split; [exact I|]. split; [exact El|].
      apply (stored_first _ _ _ _ es). rewrite <- !app_assoc. exact Sb.
    - right. right. exists id, l, cs, k. auto.
  Qed.
End Sheltered.

(** The text of a string does not change ... *)
Theorem C89_string_partial : forall p fs paths s m params x y o text, history p fs paths s -> vectors s -> sheltered p m params s ->
  reaches p (start m params s) x -> reaches p x y ->
  at_hand (state_of x) o -> string_value (state_of x) o text -> string_value (state_of y) o text.
Proof. intros; eapply text_stays; eassumption. Qed.
(** ... nor the type of the elements and the length of an array ... *)
Theorem C89_array_partial : forall p fs paths s m params x y o t n, history p fs paths s -> vectors s -> sheltered p m params s ->
  reaches p (start m params s) x -> reaches p x y ->
  at_hand (state_of x) o -> is_array (state_of x) o t n -> is_array (state_of y) o t n.
Proof. intros; eapply array_stays; eassumption. Qed.
(** ... nor the type of an object ... *)
Theorem C89_object_partial : forall p fs paths s m params x y o t, history p fs paths s -> vectors s -> sheltered p m params s ->
  reaches p (start m params s) x -> reaches p x y ->
  at_hand (state_of x) o -> is_object (state_of x) o t -> is_object (state_of y) o t.
Proof. intros; eapply object_stays; eassumption. Qed.
(** ... and no object is ever removed: the heap stays where it is and only grows. *)
Theorem C89_grows_partial : forall p fs paths s m params x y, history p fs paths s -> vectors s -> sheltered p m params s ->
  reaches p (start m params s) x -> reaches p x y ->
  len (memory (state_of x)) <= len (memory (state_of y)) /\ h_gen (x_heap (state_of y)) = h_gen (x_heap (state_of x)).
Proof.
  intros p fs paths s m params x y. intros.
  eapply (heap_stays p fs paths s m params x y (mkObj 0 0)); eassumption.
Qed.
(** Every reference that the program can use is to an object, an array or a string. *)
Theorem C89_reference_partial : forall p fs paths s m params x o,
  history p fs paths s -> vectors s -> sheltered p m params s -> reaches p (start m params s) x -> at_hand (state_of x) o ->
  (exists t, is_object (state_of x) o t) \/ (exists t n, is_array (state_of x) o t n) \/
  (exists id l cs n, List.length id = 4%nat /\ encodes 8 n l /\ len cs = 2 * n /\ stored (state_of x) o 0 ([x04] ++ id ++ l ++ cs)).
Proof. exact reference_good. Qed.

(** ** What does not hold *)

(** A store of an int to a field of type short at the end of an object reaches the block behind it: whatever
    was there, an array or a string for instance, stops being one. *)
Theorem C89_neighbour_refuted fuel p fr s bs f o o' a v rest fl i0 :
  code_here fr (x7d :: bs) -> List.length bs = 4%nat -> denotes_field (x_vm s) (fr_assembly fr) (Z.to_N (number bs)) f ->
  x_operands s = VInt I32 v :: VObject o :: rest -> (0 <= v < 2 ^ 15)%Z -> field_value s o f (VInt I16 a) ->
  stored s o' 0 [fl; i0] -> o_off o' = o_off o + 5 + f_offset f + 2 ->
  exists fr' s', step fuel p fr s = Ok (ONext fr') s' /\ field_value s' o f (VInt I16 v) /\ stored s' o' 0 [x00; x00] /\
    (forall text, ~ string_value s' o' text) /\ (forall t n, ~ is_array s' o' t n).
Proof.
  intros C L D O Hv (H & (tn & T & N) & ab & Ra & Sa) Sn Off.
  destruct (represents_bytes _ _ Ra) as (_ & La & _). cbn [kind_of held_size ibits] in La. change (16 / 8) with 2 in La.
  set (vb := le_enc 2 (Z.to_N v)). assert (Lv : List.length vb = 2%nat) by apply le_enc_length.
  assert (Nv : number vb = v).
  { rewrite number_le_dec. unfold vb. rewrite le_dec_enc by (change (256 ^ N.of_nat 2) with 65536; lia). lia. }
  clearbody vb. destruct vb as [|b0 [|b1 [|]]]; try discriminate Lv.
  assert (Rs : represents (VInt I16 v) [b0; b1]).
  { apply signed_bytes; [reflexivity|reflexivity|]. unfold signed_number. cbn [List.length]. change (2 ^ (8 * Z.of_nat 2 - 1))%Z with 32768%Z.
    rewrite Nv. destruct (Z.ltb_spec v 32768); lia. }
  assert (Rx : represents (VInt I32 v) [b0; b1; x00; x00]).
  { apply signed_bytes; [reflexivity|reflexivity|]. unfold signed_number. cbn [List.length]. change (2 ^ (8 * Z.of_nat 4 - 1))%Z with 2147483648%Z.
    assert (E : number [b0; b1; x00; x00] = v) by (rewrite <- Nv; cbn [number]; change (Z.of_N (Byte.to_N x00)) with 0%Z; lia).
    rewrite E. destruct (Z.ltb_spec v 2147483648); lia. }
  destruct (represents_bytes _ _ Rx) as (HB & Lx & _).
  assert (Sab : stored (set_operands s rest) o (5 + f_offset f) (ab ++ [fl; i0])).
  { destruct Sa as (G & x1 & y1 & M1 & L1). destruct Sn as (_ & x2 & y2 & M2 & L2). split; [exact G|]. exists x1, y2.
    split; [|exact L1]. change (memory s = x1 ++ (ab ++ [fl; i0]) ++ y2). rewrite M1 in M2. rewrite app_assoc in M2.
    apply split_same in M2 as [X M2]; [|rewrite app_length; unfold len in *; lia].
    rewrite M1, M2, <- app_assoc. reflexivity. }
  destruct (store_stored _ _ _ _ [b0; b1; x00; x00] Sab) as (s' & E & St & W & O'); [rewrite len_app, La; reflexivity|].
  rewrite (step_stfld _ _ _ _ _ _ _ _ _ C L D O).
  assert (E' : set_field o f (VInt I32 v) (set_operands s rest) = Ok tt s').
  { unfold set_field, bind. rewrite (raw_object_ok (set_operands s rest) o H), HB. exact E. }
  unfold bind. rewrite E'. eexists _, s'. split; [reflexivity|].
  assert (F : stored s' o 0 [x00]).
  { eapply writes_keep; [exact W|exact H|]. left. change (len [x00]) with 1. lia. }
  assert (Z : stored s' o' 0 [x00; x00]).
  { change [b0; b1; x00; x00] with ([b0; b1] ++ [x00; x00]) in St. apply stored_last in St. destruct St as (G & x1 & y1 & M1 & L1).
    destruct Sn as (Gn & _). destruct Sa as (Go & _). split; [congruence|]. exists x1, y1. split; [exact M1|].
    rewrite L1, Off. change (len [b0; b1]) with 2. lia. }
  destruct W as (V & _). split; [|split; [exact Z|split]].
  - split; [exact F|]. split; [exists tn; rewrite V; split; [exact T|exact N]|]. exists [b0; b1]. split; [exact Rs|].
    change [b0; b1; x00; x00] with ([b0; b1] ++ [x00; x00]) in St. exact (stored_first _ _ _ _ _ St).
  - intros text (id & l & cs & _ & _ & _ & X). pose proof (stored_prefix s' o' [x00] [x00] [x04] _ Z X eq_refl) as Q. discriminate Q.
  - intros t n (ti & id & eid & l & _ & _ & _ & _ & X). pose proof (stored_prefix s' o' [x00] [x00] [x02] _ Z X eq_refl) as Q. discriminate Q.
Qed.

(** ** Examples *)

(** The array behind the object of the demonstration image, before and after a store to its last field. *)
Example C89_neighbour_ex p : exists fr' s',
  step 10 p (frame_with [x7d; x04; x00; x00; x04]) (set_operands (m2 p) [VInt I32 7; VObject (box p)]) = Ok (ONext fr') s' /\
  is_array (m2 p) (arr p) int_ref 3 /\ forall t n, ~ is_array s' (arr p) t n.
Proof.
  assert (F : field_value (set_operands (m2 p) [VInt I32 7; VObject (box p)]) (box p) (lab_field 3) (VInt I16 0)).
  { destruct (field_t p) as (F1 & (tn & F2 & F3) & F4 & F5 & F6).
    assert (K : forall d bs, stored (m1 p) (box p) d bs -> stored (m2 p) (box p) d bs).
    { destruct (C39_ex p) as (b1 & b2 & b3 & _). destruct (C39_fresh _ _ _ _ _ (proj1 (m1_ready p)) (granted2 p)) as (_ & bs2 & B2 & A2).
      intros d bs (G & x & y & M & L). split; [rewrite G; destruct p; vm_compute; reflexivity|].
      assert (Q : exists new, memory (m2 p) = memory (m1 p) ++ new) by (eexists; destruct p; vm_compute; reflexivity).
      destruct Q as [new Q]. exists x, (y ++ new). rewrite Q, M, <- !app_assoc. auto. }
    split; [exact (K _ _ F1)|]. split; [exists tn; split; [exact F2|]|exists F4; split; [exact F5|exact (K _ _ F6)]].
    destruct F3 as (ti & E & Nm). exists ti. split; [|exact Nm]. cbn [x_vm set_operands].
    assert (Q : exists new, c_types (x_vm (m2 p)) = c_types (x_vm (m1 p)) ++ new) by (eexists; destruct p; vm_compute; reflexivity).
    destruct Q as [new ->]. rewrite nth_error_app1; [exact E|exact (nth_lt _ _ _ E)]. }
  destruct (arr_value p) as (id & ti & eid & l & bss & Li & Et & Ee & El & _ & Sa).
  destruct id as [|i0 id]; [discriminate Li|].
  destruct (C89_neighbour_refuted 10 p (frame_with [x7d; x04; x00; x00; x04]) (set_operands (m2 p) [VInt I32 7; VObject (box p)])
    [x04; x00; x00; x04] (lab_field 3) (box p) (arr p) 0 7 [] x02 i0) as (fr' & s' & E & _ & _ & _ & Na).
  - apply here_it_is.
  - reflexivity.
  - cbn [x_vm set_operands]. replace (x_vm (m2 p)) with (x_vm (m2 p)) by reflexivity.
    destruct (lab_token 3 ltac:(lia)) as (ai & r & Ea & Lr & Er & Ef). exists ai, r. split; [|auto].
    rewrite <- Ea. destruct p; vm_compute; reflexivity.
  - reflexivity.
  - lia.
  - exact F.
  - apply (stored_first _ _ _ [x02; i0] (id ++ eid ++ l ++ concat bss)). exact Sa.
  - destruct p; vm_compute; reflexivity.
  - exists fr', s'. split; [exact E|]. split; [|exact Na]. exists ti, (i0 :: id), eid, l. split; [exact Et|]. split; [exact Li|].
    split; [exact Ee|]. split; [exact El|]. apply (stored_first _ _ _ _ (concat bss)). rewrite <- !app_assoc. exact Sa.
Qed.

(** Hello of the demonstration image loads "a" and passes it to Say, which loads it from its parameter. *)
Example C89_ex p : sheltered p (lab "Hello") [] demo_lab /\ exists x y o,
  reaches p (start (lab "Hello") [] demo_lab) x /\ reaches p x y /\ at_hand (state_of x) o /\ string_value (state_of x) o [0x61] /\
  exists fr s, y = InFrame fr s /\ fr_method fr <> lab "Hello" /\ x_operands s = [VObject o].
Proof.
  split; [split; [intros o []|exact (C73_ex_hello p)]|].
  assert (C : exists b fr0 s0 fr1 s1 m c r fr2 s2 b1 fr3 s3 fr4 s4 o,
    mt_impl (lab "Hello") = IIL b /\ entered (lab "Hello") b CHost (new_machine demo_lab []) = Some (fr0, s0) /\
    step 20 p fr0 s0 = Ok (ONext fr1) s1 /\ step 20 p fr1 s1 = Ok (OCall m c r fr2) s2 /\ mt_impl m = IIL b1 /\
    entered m b1 c s2 = Some (fr3, s3) /\ step 20 p fr3 s3 = Ok (ONext fr4) s4 /\
    x_operands s1 = [VObject o] /\ x_operands s4 = [VObject o] /\ o = mkObj 0 0 /\ h_gen (x_heap s1) = 0%nat /\
    (exists id, List.length id = 4%nat /\ memory s1 = [x04] ++ id ++ [x01; x00; x00; x00; x00; x00; x00; x00] ++ [x61; x00]) /\
    mt_name (fr_method fr4) <> mt_name (lab "Hello")).
  { do 16 eexists. split; [reflexivity|].
    destruct p; (do 10 (split; [vm_compute; reflexivity|]); split; [exists [x10; x00; x00; x00]; split; vm_compute; reflexivity|vm_compute; discriminate]). }
  destruct C as (b & fr0 & s0 & fr1 & s1 & m & c & r & fr2 & s2 & b1 & fr3 & s3 & fr4 & s4 & o & Ib & E0 & E1 & E2 & Ib1 & E3 & E4 & O1 & O4 & -> & G & (id & Li & M) & Nm).
  exists (InFrame fr1 s1), (InFrame fr4 s4), (mkObj 0 0).
  split; [eapply into_call; [exact Ib|apply enters_entered; exact E0|]; eapply past_instruction; [exact E1|]; apply reached|].
  split; [eapply to_call; [exact E2|]; eapply into_call; [exact Ib1|apply enters_entered; exact E3|]; eapply past_instruction; [exact E4|]; apply reached|].
  split; [left; cbn [state_of]; rewrite O1; now left|]. split.
  - exists id, [x01; x00; x00; x00; x00; x00; x00; x00], [[x61; x00]]. split; [exact Li|]. split; [split; reflexivity|].
    split; [repeat constructor|]. split; [cbn; congruence|]. exists [], []. cbn [state_of]. rewrite M. split; [|reflexivity]. cbn [concat]. rewrite !app_nil_r. reflexivity.
  - exists fr4, s4. split; [reflexivity|]. split; [congruence|exact O4].
Qed.

(** Set of the demonstration image creates an array of 5 numbers and stores 77 at 2. *)
Example C89_array_ex p : sheltered p (lab "Set") (ints [5; 2; 77; 2]%Z) demo_lab /\ exists x y o,
  reaches p (start (lab "Set") (ints [5; 2; 77; 2]%Z) demo_lab) x /\ reaches p x y /\ at_hand (state_of x) o /\
  is_array (state_of x) o int_ref 5 /\ memory (state_of y) <> memory (state_of x).
Proof.
  split; [split; [apply ints_numbers|exact (C73_ex_set p)]|].
  assert (C : exists b fr0 s0 fr1 s1 fr2 s2 fr3 s3 fr4 s4 fr5 s5 fr6 s6 fr7 s7 ti,
    mt_impl (lab "Set") = IIL b /\ entered (lab "Set") b CHost (new_machine demo_lab (ints [5; 2; 77; 2]%Z)) = Some (fr0, s0) /\
    step 20 p fr0 s0 = Ok (ONext fr1) s1 /\ step 20 p fr1 s1 = Ok (ONext fr2) s2 /\ step 20 p fr2 s2 = Ok (ONext fr3) s3 /\
    step 20 p fr3 s3 = Ok (ONext fr4) s4 /\ step 20 p fr4 s4 = Ok (ONext fr5) s5 /\ step 20 p fr5 s5 = Ok (ONext fr6) s6 /\
    step 20 p fr6 s6 = Ok (ONext fr7) s7 /\
    x_operands s2 = [VObject (mkObj 0 0)] /\ h_gen (x_heap s2) = 0%nat /\ nth_error (c_types (x_vm s2)) int_ref = Some ti /\ ti_id ti = 10 /\
    (exists i0 rest, memory s2 = [x02] ++ [i0; x00; x00; x00] ++ [x0a; x00; x00; x00] ++ [x05; x00; x00; x00; x00; x00; x00; x00] ++ rest) /\
    memory s7 <> memory s2).
  { do 18 eexists. split; [reflexivity|].
    destruct p; (do 12 (split; [vm_compute; reflexivity|]); split; [eexists _, _; vm_compute; reflexivity|vm_compute; discriminate]). }
  destruct C as (b & fr0 & s0 & fr1 & s1 & fr2 & s2 & fr3 & s3 & fr4 & s4 & fr5 & s5 & fr6 & s6 & fr7 & s7 & ti &
    Ib & E0 & E1 & E2 & E3 & E4 & E5 & E6 & E7 & O & G & Et & Ti & (i0 & rest & M) & Ne).
  exists (InFrame fr2 s2), (InFrame fr7 s7), (mkObj 0 0).
  split; [eapply into_call; [exact Ib|apply enters_entered; exact E0|]; do 2 (eapply past_instruction; [eassumption|]); apply reached|].
  split; [do 5 (eapply past_instruction; [eassumption|]); apply reached|].
  split; [left; cbn [state_of]; rewrite O; now left|]. split; [|exact Ne].
  exists ti, [i0; x00; x00; x00], [x0a; x00; x00; x00], [x05; x00; x00; x00; x00; x00; x00; x00].
  split; [exact Et|]. split; [reflexivity|]. split; [rewrite Ti; split; reflexivity|]. split; [split; reflexivity|].
  split; [cbn; congruence|]. exists [], rest. cbn [state_of]. rewrite M. split; reflexivity.
Qed.
(** MakeX creates an object and calls its constructor, which stores to a field. *)
Example C89_object_ex p : sheltered p (lab "MakeX") (ints [10; 3]%Z) demo_lab /\ exists x y o,
  reaches p (start (lab "MakeX") (ints [10; 3]%Z) demo_lab) x /\ reaches p x y /\ at_hand (state_of x) o /\
  is_object (state_of x) o box_type /\ memory (state_of y) <> memory (state_of x).
Proof.
  split; [split; [apply ints_numbers|exact (C73_ex_make p)]|].
  assert (C : exists fr0 s0 fr1 s1 fr2 s2 m c r fr3 s3 fr4 s4 fr5 s5 fr6 s6 fr7 s7 fr8 s8 fr9 s9 b b1 ti,
    mt_impl (lab "MakeX") = IIL b /\ entered (lab "MakeX") b CHost (new_machine demo_lab (ints [10; 3]%Z)) = Some (fr0, s0) /\
    step 20 p fr0 s0 = Ok (ONext fr1) s1 /\ step 20 p fr1 s1 = Ok (ONext fr2) s2 /\ step 20 p fr2 s2 = Ok (OCall m c r fr3) s3 /\
    mt_impl m = IIL b1 /\ entered m b1 c s3 = Some (fr4, s4) /\
    step 20 p fr4 s4 = Ok (ONext fr5) s5 /\ step 20 p fr5 s5 = Ok (ONext fr6) s6 /\ step 20 p fr6 s6 = Ok (ONext fr7) s7 /\
    step 20 p fr7 s7 = Ok (ONext fr8) s8 /\ step 20 p fr8 s8 = Ok (ONext fr9) s9 /\
    nth_error (k_cells (x_frames s3)) 0 = Some (VObject (mkObj 0 0)) /\ h_gen (x_heap s3) = 0%nat /\
    nth_error (c_types (x_vm s3)) box_type = Some ti /\ ti_id ti = 22 /\
    (exists rest, memory s3 = [x00] ++ [x16; x00; x00; x00] ++ rest) /\ memory s9 <> memory s3).
  { do 26 eexists. split; [reflexivity|].
    destruct p; (do 15 (split; [vm_compute; reflexivity|]); split; [eexists; vm_compute; reflexivity|vm_compute; discriminate]). }
  destruct C as (fr0 & s0 & fr1 & s1 & fr2 & s2 & m & c & r & fr3 & s3 & fr4 & s4 & fr5 & s5 & fr6 & s6 & fr7 & s7 & fr8 & s8 & fr9 & s9 & b & b1 & ti &
    Ib & E0 & E1 & E2 & E3 & Ib1 & E4 & E5 & E6 & E7 & E8 & E9 & O & G & Et & Ti & (rest & M) & Ne).
  exists (Calling m c s3), (InFrame fr9 s9), (mkObj 0 0).
  split; [eapply into_call; [exact Ib|apply enters_entered; exact E0|]; do 2 (eapply past_instruction; [eassumption|]); eapply to_call; [exact E3|]; apply reached|].
  split; [eapply into_call; [exact Ib1|apply enters_entered; exact E4|]; do 5 (eapply past_instruction; [eassumption|]); apply reached|].
  split; [right; left; exact (nth_error_In _ _ O)|]. split; [|exact Ne].
  exists ti, [x16; x00; x00; x00]. split; [exact Et|]. split; [rewrite Ti; split; reflexivity|].
  split; [cbn; congruence|]. exists [], rest. cbn [state_of]. rewrite M. split; reflexivity.
Qed.

Print Assumptions C89_string_partial.
Print Assumptions C89_array_partial.
Print Assumptions C89_object_partial.
Print Assumptions C89_grows_partial.
Print Assumptions C89_reference_partial.
Print Assumptions C89_neighbour_refuted.

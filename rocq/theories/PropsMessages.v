(** Property C93: the messages of errors say what went wrong and where. *)
From Coq Require Import NArith ZArith Arith Lia String List Bool.
From Coq.Strings Require Import Byte.
From Verif Require Import Base BaseFacts Metadata Utf Runtime Value Opcodes Gc Interp Texts Messages SpecRuntime SpecExec SpecFrames SpecStack
  SpecTypes SpecHeap SpecHistory SpecMnemonics SpecTexts SpecMessages RuntimeInv InterpFacts InterpInv FrameFacts HeapFacts FieldFacts
  StackFacts VmFacts CallFacts TraceFacts TypeFacts HistoryProofs DemoImages DemoStates DemoRuns PropsDecode PropsMnemonic PropsTexts PropsHeap PropsFrames PropsValue MessageFacts SpecSafety
  SafetyFacts SafetyOps AgeFacts StoreRuns.
Import ListNotations.
Open Scope N_scope.

(** ** Numbers and values *)

Lemma hex4_ok n : n < 2 ^ 64 -> offset_text n (hex4 n).
Proof.
  intro H. destruct (lower_hex_ok 128 n) as (A & B & C & _); [|lia|].
  { eapply N.lt_trans; [exact H|]. vm_compute. reflexivity. }
  fold (hex_of n) in A, B, C. unfold hex4, offset_text. cbv zeta. split; [now apply hex_zeros|].
  rewrite app_length, repeat_length. split; [lia|]. intro L.
  assert (E : (4 - List.length (hex_of n) = 0)%nat) by lia. rewrite E. cbn [repeat app].
  destruct (N.eq_dec n 0) as [-> |Z]; [vm_compute in L; lia|]. exact (B Z).
Qed.
Lemma token_text_ok tok : tok < 2 ^ 32 -> token_shown tok (token_text tok).
Proof.
  intro H. destruct (C81_token_text tok H) as (ds & E & L & N). exists ds. split; [exact E|]. split; [unfold len in L; lia|exact N].
Qed.

Lemma dec_char d : d < 10 -> nth_error (bytes_of_string "0123456789") (N.to_nat d) = Some (nb (48 + d)).
Proof.
  intros H. assert (K : forallb (fun i => match nth_error (bytes_of_string "0123456789") i with
    | Some c => Byte.eqb c (nb (48 + N.of_nat i)) | None => false end) (seq 0 10) = true) by reflexivity.
  rewrite forallb_forall in K. specialize (K (N.to_nat d)). rewrite N2Nat.id in K.
  specialize (K ltac:(apply in_seq; lia)). destruct (nth_error _ _) as [c|]; [|discriminate].
  apply byte_eqb_spec in K. congruence.
Qed.
Lemma decimal_app fuel : forall n acc, decimal fuel n acc = decimal fuel n [] ++ acc.
Proof.
  induction fuel as [|fuel IH]; intros n acc; [reflexivity|]. cbn [decimal].
  destruct (n / 10 =? 0); [reflexivity|]. rewrite IH, (IH _ [_]), <- app_assoc. reflexivity.
Qed.
Lemma decimal_ok fuel : forall n, n < 2 ^ N.of_nat fuel -> (0 < fuel)%nat ->
  dec_number (decimal fuel n []) n /\ (n <> 0 -> exists c ds, decimal fuel n [] = c :: ds /\ c <> x30).
Proof.
  induction fuel as [|fuel IH]; intros n Hn Hf; [lia|]. cbn [decimal].
  pose proof (N.div_mod n 10 ltac:(discriminate)) as DM. pose proof (N.mod_lt n 10 ltac:(discriminate)) as ML.
  destruct (n / 10 =? 0) eqn:E.
  - apply N.eqb_eq in E. assert (n mod 10 = n) as -> by lia. split.
    + exact (dec_more [] 0 _ n dec_none (dec_char n ltac:(lia))).
    + intros Z. exists (nb (48 + n)), []. split; [reflexivity|].
      assert (K : forallb (fun i => negb (Byte.eqb (nb (48 + N.of_nat i)) x30)) (seq 1 9) = true) by reflexivity.
      rewrite forallb_forall in K. specialize (K (N.to_nat n) ltac:(apply in_seq; lia)). rewrite N2Nat.id in K.
      intros C. rewrite C in K. discriminate.
  - apply N.eqb_neq in E. rewrite decimal_app.
    assert (P : 2 ^ N.of_nat (S fuel) = 2 * 2 ^ N.of_nat fuel) by (rewrite Nat2N.inj_succ, N.pow_succ_r'; reflexivity).
    assert (L : n / 10 < 2 ^ N.of_nat fuel) by (apply N.div_lt_upper_bound; [discriminate|lia]).
    assert (F : (0 < fuel)%nat) by (destruct fuel; [cbn in L; lia|lia]).
    destruct (IH (n / 10) L F) as (A & B). split.
    + pose proof (dec_more _ _ _ _ A (dec_char (n mod 10) ML)) as H. rewrite <- DM in H. exact H.
    + intros _. destruct (B E) as (c & ds & -> & Nc). exists c, (ds ++ [nb (48 + n mod 10)]). split; [reflexivity|exact Nc].
Qed.
Lemma natural_ok n : natural n (decimal (S (N.to_nat (N.log2 n))) n []).
Proof.
  destruct (decimal_ok (S (N.to_nat (N.log2 n))) n) as [A B]; [|lia|].
  - rewrite Nat2N.inj_succ, N2Nat.id. destruct (N.eq_dec n 0) as [-> |Z]; [reflexivity|]. apply N.log2_spec. lia.
  - split; [exact A|]. destruct (N.eq_dec n 0) as [-> |Z]; [exists x30, []; split; [reflexivity|auto]|].
    destruct (B Z) as (c & l & E & Nc). exists c, l. split; [exact E|]. intro; contradiction.
Qed.
Lemma int_text_ok x : integer x (int_text x).
Proof.
  unfold int_text. destruct (Z.ltb_spec x 0) as [L|L].
  - right. split; [exact L|]. eexists. split; [reflexivity|]. replace (Z.to_N (- x)) with (Z.abs_N x) by lia. apply natural_ok.
  - left. split; [exact L|]. replace (Z.to_N x) with (Z.abs_N x) by lia. apply natural_ok.
Qed.
Lemma value_text_ok pr v : value_shown v (value_text pr v).
Proof.
  destruct v as [t x|b|b|o]; cbn [value_text]; unfold wrapped.
  - pose proof (int_text_ok x) as I.
    destruct t; cbn [ity_text]; (eapply int_shown; [|exact I]); cbn [In]; repeat (try (left; reflexivity); right).
  - exact (single_shown b (pr_f32 pr b)).
  - exact (double_shown b (pr_f64 pr b)).
  - pose proof (object_shown o (pr_pointer pr o)) as H. rewrite <- !app_assoc. cbn in H |- *. exact H.
Qed.

(** ** The instructions *)

Lemma il_get_inv fr n s x fr1 s1 : il_get fr n s = Ok (x, fr1) s1 ->
  exists bs, code_here fr bs /\ len bs = n /\ x = le_dec bs /\ fr1 = set_ip fr (fr_ip fr + n) /\ s1 = s.
Proof.
  unfold il_get. destruct (N.leb_spec (fr_ip fr + n) (len (fr_code fr))) as [L|L]; [|discriminate]. intro E. injection E as <- <- <-.
  exists (sub_list (fr_ip fr) n (fr_code fr)). repeat split.
  - exists (firstn (N.to_nat (fr_ip fr)) (fr_code fr)), (skipn (N.to_nat n) (skipn (N.to_nat (fr_ip fr)) (fr_code fr))).
    unfold sub_list. rewrite firstn_skipn, firstn_skipn. split; [reflexivity|]. unfold len in *. rewrite firstn_length. lia.
  - apply len_sub_list. exact L.
Qed.
Lemma code_here_more fr b bs : code_here fr [b] -> code_here (set_ip fr (fr_ip fr + 1)) bs -> code_here fr (b :: bs).
Proof.
  intros (be & af & E & L) (be' & af' & E' & L'). cbn [set_ip fr_code fr_ip] in E', L'.
  assert (B : be ++ [b] = be' /\ af = bs ++ af').
  { apply split_same; [rewrite <- E', E, <- app_assoc; reflexivity|]. unfold len in *. rewrite app_length. cbn [List.length]. lia. }
  destruct B as [B ->]. exists be, af'. split; [|exact L]. rewrite E. reflexivity.
Qed.
Lemma operand_token fr b s x fr1 s1 : code_here fr [b] -> il_get (set_ip fr (fr_ip fr + 1)) 4 s = Ok (x, fr1) s1 ->
  exists tok, code_here fr (b :: tok) /\ List.length tok = 4%nat /\ x = Z.to_N (number tok) /\ fr_assembly fr1 = fr_assembly fr /\ s1 = s.
Proof.
  intros C E. destruct (il_get_inv _ _ _ _ _ _ E) as (bs & H & L & -> & -> & ->). exists bs.
  split; [now apply code_here_more|]. split; [unfold len in L; lia|].
  rewrite number_le_dec, N2Z.id. auto.
Qed.

(** The operand is no array. *)
Lemma as_array_inv o s b s1 : as_array o s = Ok b s1 ->
  s1 = s /\ exists flags, stored s o 0 [flags] /\ N.testbit (Byte.to_N flags) 1 = b.
Proof.
  unfold as_array, flags_of. intro E.
  apply bind_inv_ok in E as (f & s2 & E & R). apply bind_inv_ok in E as (bs & s3 & E & R2). injection R2 as <- <-. injection R as <- <-.
  apply load_inv in E as (-> & S & L). split; [reflexivity|].
  destruct bs as [|c [|c' bs]]; [discriminate L| |unfold len in L; cbn in L; lia].
  exists c. split; [exact S|]. unfold has, is_array. cbn [le_dec]. destruct c; reflexivity.
Qed.
Lemma on_vm_inv {A} (m : M vm A) s a s1 : pure m -> on_vm m s = Ok a s1 -> m (x_vm s) = Ok a (x_vm s) /\ s1 = s.
Proof.
  intros P E. unfold on_vm in E. specialize (P (x_vm s)). destruct (m (x_vm s)) as [b v| | | |]; try discriminate.
  injection E as -> <-. subst v. split; [reflexivity|]. destruct s; reflexivity.
Qed.
Lemma pure_type_text t : pure (type_text t).
Proof. intro s. unfold type_text, bind, the_type. destruct (nth_error _ _); reflexivity. Qed.
Lemma pure_id_of t : pure (id_of t).
Proof. intro s. unfold id_of, bind, the_type. destruct (nth_error _ _); reflexivity. Qed.

Lemma said {S A} (a b : A) (s s1 : S) : ret (Some a) s = Ok (Some b) s1 -> b = a.
Proof. unfold ret. congruence. Qed.

Inductive array_fault (s : machine) (v : value) : name -> Prop :=
| no_array_at_all shown : no_array s v -> value_shown v shown ->
    array_fault s v (bytes_of_string "Invalid operation: Stelem on " ++ shown)
| of_others o t n : v = VObject o -> other_array s o t -> is_named (c_types (x_vm s)) t n ->
    array_fault s v (bytes_of_string "Cannot use " ++ n ++ bytes_of_string " as System.Int32[]").
Lemma array_text_run p pr s text s1 : consistent p (x_vm s) -> array_text pr s = Ok (Some text) s1 ->
  exists v rest, x_operands s = v :: rest /\ array_fault s v text.
Proof.
  intros W E. unfold array_text in E. apply bind_inv_ok in E as (v & s2 & P & E).
  apply pop_inv in P as (l & O & ->). exists v, l. split; [exact O|].
  assert (T : match v with VObject _ => False | _ => True end -> array_fault s v (bytes_of_string "Invalid operation: Stelem on " ++ value_text pr v)).
  { intro N. constructor; [intros o ->; contradiction|apply value_text_ok]. }
  destruct v as [t x|b|b|o]; [apply said in E; subst text; exact (T I)..|]. clear T.
  apply bind_inv_ok in E as (b & s2 & P & E). apply as_array_inv in P as (-> & flags & S & B).
  change (stored s o 0 [flags]) in S.
  destruct b.
  2:{ apply said in E; subst text. constructor; [|apply value_text_ok]. intros o' Q. injection Q as <-. exists flags. auto. }
  apply bind_inv_ok in E as (n & s2 & P & E). destruct n as [n|]; [discriminate E|].
  unfold array_slice in P. apply bind_inv_ok in P as (q & s3 & P & R). apply on_vm_inv in P as (Q & ->); [|apply pure_the_primitives].
  apply bind_inv_ok in R as (id & s3 & P & R). apply on_vm_inv in P as (I & ->); [|apply pure_id_of].
  apply bind_inv_ok in R as (eid & s3 & P & R). apply load_inv in P as (-> & SE & LE).
  change (stored s o 5 eid) in SE. cbn [x_vm set_operands] in Q, I.
  destruct (N.eqb_spec (le_dec eid) id) as [|NE].
  { exfalso. apply bind_inv_ok in R as (l' & s3 & _ & R). apply bind_inv_ok in R as (u & s4 & _ & R). discriminate R. }
  injection R as <-.
  apply bind_inv_ok in E as (t & s3 & P & E). unfold type_of in P. apply bind_inv_ok in P as (ti & s4 & P & R).
  apply load_inv in P as (-> & SI & LI). change (stored s o 1 ti) in SI.
  destruct (_ <? _) eqn:LT; [|discriminate R]. injection R as <- <-.
  apply bind_inv_ok in E as (u & s3 & P & E). apply on_vm_inv in P as (N & ->).
  2:{ intro v. unfold named, get_type, bind, unwrap. destruct (map_get _ _ _); reflexivity. }
  cbn [x_vm set_operands] in N. destruct (named_is _ _ _ _ p W N) as (_ & ui & Eu & Nu).
  apply bind_inv_ok in E as (x & s3 & P & E). apply on_vm_inv in P as (X & ->); [|apply pure_type_text].
  apply bind_inv_ok in E as (y & s3 & P & E). apply on_vm_inv in P as (Y & ->); [|apply pure_type_text].
  apply said in E; subst text. cbn [x_vm set_operands] in X, Y.
  unfold type_text, bind, the_type in X, Y. rewrite Eu in Y. injection Y as <-. rewrite Nu.
  destruct (nth_error (c_types (x_vm s)) (N.to_nat (le_dec ti))) as [tx|] eqn:Et; [|discriminate X]. injection X as <-.
  eapply of_others; [reflexivity| |exists tx; split; [exact Et|reflexivity]].
  exists flags, ti, eid. split; [exact S|]. split; [exact SI|]. split; [exact SE|]. split; [exact B|].
  split; [split; [unfold len in LI; lia|rewrite number_le_dec, N2Nat.id; reflexivity]|]. split; [unfold len in LE; lia|].
  { intros w wi (q' & Eq & In) Ew [_ En]. rewrite number_le_dec in En. apply N2Z.inj in En.
    assert (q' = q). { unfold the_primitives in Q. rewrite Eq in Q. cbn in Q. congruence. }
    subst q'. assert (w = pt_int q).
    { cbn in In. repeat (destruct In as [In|In]; [injection In as In'; first [discriminate In'|congruence]|]). contradiction. }
    subst w. unfold id_of, bind, the_type in I. cbn [managed_type] in I. rewrite Ew in I. injection I as <-. congruence. }
Qed.

Definition text_apart (op : opcode) : bool :=
  match op with Call | Newobj | Stfld | Ldfld | Stelem_I4 | Ldelem_I4 | Ldstr | Prefix7 => true | _ => never_fails op end.
Definition op_listed (op : opcode) : bool :=
  ((0xf8 <? opcode_code op) && (opcode_code op <? 256)) || text_apart op ||
  (existsb (fun e => bytes_eqb (fst e) (opcode_bytes op) && String.eqb (spelled (snd e)) (opcode_name op)) instructions &&
   negb (existsb (fun e => bytes_eqb (fst e) (opcode_bytes op)) (formats ++ branch_formats ++ [([x2a], 0)]))).
Lemma ops_listed op : op_listed op = true.
Proof. destruct op; vm_compute; reflexivity. Qed.

Lemma get_opcode_fit fr op fr1 s s1 : get_opcode fr s = Ok (op, fr1) s1 -> ~ prefix_only op.
Proof.
  unfold get_opcode, bind, code_at. destruct (nth_error (fr_code fr) (N.to_nat (fr_ip fr))) as [b|]; [|discriminate].
  cbn [ret]. change (opcode_code Prefix7) with 0xf8. destruct (0xf8 <? bn b) eqn:L.
  - destruct (nth_error (fr_code fr) (N.to_nat (fr_ip fr + 1))) as [c|]; [|discriminate]. cbn [ret].
    destruct (from_u16 (N.lor (bn c) (N.shiftl (bn b) 8))) as [o|] eqn:F; [|discriminate]. cbn [unwrap ret]. intro E. injection E as -> _ _.
    assert (D : decodes2 b c = true).
    { pose proof decodes2_all as A. rewrite forallb_forall in A. specialize (A b (in_byte_list b)). rewrite forallb_forall in A.
      apply A, in_byte_list. }
    unfold decodes2 in D. rewrite L, F in D. cbn [negb orb] in D. apply bytes_eqb_spec in D. intros [P Q].
    unfold opcode_bytes in D. apply N.ltb_lt in Q. rewrite Q in D. discriminate D.
  - destruct (from_u16 (bn b)) as [o|] eqn:F; [|discriminate]. cbn [unwrap ret]. intro E. injection E as -> _ _.
    assert (D : decodes1 b = true).
    { pose proof decodes1_all as A. rewrite forallb_forall in A. apply A, in_byte_list. }
    unfold decodes1 in D. rewrite L, F in D. cbn [orb] in D. apply bytes_eqb_spec in D. intros [P Q].
    unfold opcode_bytes in D. pose proof (proj2 (N.ltb_lt _ _) Q) as Q'. rewrite Q' in D. injection D as D.
    rewrite <- D in L. rewrite bn_nb in L by exact Q. apply N.ltb_ge in L. lia.
Qed.

Lemma unimplemented_run (fr : frame) (s : machine) (op : opcode) (text : name) : len (fr_code fr) < 2 ^ 63 -> ~ prefix_only op ->
  instruction fr (opcode_bytes op) -> text_apart op = false \/ op = Prefix7 ->
  text = unimplemented_text op (set_ip fr (fr_ip fr + len (opcode_bytes op))) -> explains fr s text \/ misleads fr s text.
Proof.
  intros Lc P I Sp ->. change (code_here fr (opcode_bytes op)) in I.
  assert (Li : fr_ip fr < 2 ^ 63). { destruct I as (be & af & E & L). rewrite L. unfold len in *. rewrite E, app_length in Lc. lia. }
  unfold unimplemented_text. rewrite !bytes_app, <- !app_assoc. cbn [set_ip fr_ip].
  destruct Sp as [Sp| ->].
  2:{ right. change (opcode_bytes Prefix7) with [xf8] in *. replace (fr_ip fr + len [xf8] - 1) with (fr_ip fr) by (unfold len; cbn [List.length]; lia).
      refine (no_instruction _ _ _ I (hex4_ok _ _)). lia. }
  pose proof (ops_listed op) as O. unfold op_listed in O. rewrite Sp, orb_false_r in O.
  destruct ((0xf8 <? opcode_code op) && (opcode_code op <? 256)) eqn:Q.
  { exfalso. apply andb_prop in Q as [Q1 Q2]. apply P. split; now apply N.ltb_lt. }
  cbn [orb] in O. apply andb_prop in O as [O1 O2]. apply existsb_exists in O1 as ([code mn] & J & O1). cbn [fst snd] in O1.
  apply andb_prop in O1 as [O1 O3]. apply bytes_eqb_spec in O1. apply String.eqb_eq in O3. subst code. rewrite <- O3.
  assert (NI : forall n, ~ In (opcode_bytes op, n) (formats ++ branch_formats ++ [([x2a], 0)])).
  { intros n K. apply negb_true_iff in O2. rewrite <- not_true_iff_false in O2. apply O2. apply existsb_exists.
    eexists. split; [exact K|]. cbn [fst]. apply bytes_eqb_refl. }
  assert (L : List.length (opcode_bytes op) = 1%nat \/ List.length (opcode_bytes op) = 2%nat)
    by (unfold opcode_bytes; destruct (_ <? 256); auto).
  destruct L as [L|L].
  - left. refine (unsupported _ _ _ _ _ J I NI _).
    replace (fr_ip fr + len (opcode_bytes op) - 1) with (fr_ip fr) by (unfold len; rewrite L; lia). apply hex4_ok. lia.
  - right. refine (second_byte _ _ _ _ _ J L I NI _).
    replace (fr_ip fr + len (opcode_bytes op) - 1) with (fr_ip fr + 1) by (unfold len; rewrite L; lia). apply hex4_ok. lia.
Qed.

Lemma method_call_said p fr tok s text s1 : method_call_text p fr tok s = Ok (Some text) s1 ->
  resolve_method p (fr_assembly fr) tok (x_vm s) = Ok None (x_vm s) /\ s1 = s /\
  exists ai, nth_error (c_arena (x_vm s)) (fr_assembly fr) = Some (Some ai) /\
    text = bytes_of_string "Cannot find method for metadata token " ++ token_text tok ++ bytes_of_string " in " ++ a_name ai.
Proof.
  unfold method_call_text. intro E. apply bind_inv_ok in E as (o & s2 & R & E). apply on_vm_inv in R as (R & ->); [|apply pure_resolve_method].
  destruct o; [discriminate E|]. split; [exact R|].
  apply bind_inv_ok in E as (ai & s2 & A & E). apply on_vm_inv in A as (A & ->).
  2:{ intro v. unfold the_assembly. destruct (nth_error _ _) as [[|]|]; reflexivity. }
  pose proof (said _ _ _ _ E) as ->. split; [unfold ret in E; congruence|]. exists ai. split; [|reflexivity].
  unfold the_assembly in A. destruct (nth_error _ _) as [[|]|]; try discriminate. injection A as ->. reflexivity.
Qed.

(** [newobj] has found its method before it calls it. *)
Lemma newobj_silent fuel p fr s text s1 : newobj_text fuel p fr s <> Ok (Some text) s1.
Proof.
  intro E. unfold newobj_text in E. apply bind_inv_ok in E as ([tok fr1] & s2 & I & E).
  apply il_get_inv in I as (bs & _ & _ & _ & _ & ->).
  apply bind_inv_ok in E as (o & s2 & R & E). apply on_vm_inv in R as (R & ->); [|apply pure_resolve_method].
  apply bind_inv_ok in E as (ctor & s2 & U & E). destruct o as [m|]; [|discriminate U]. injection U as -> <-.
  apply bind_inv_ok in E as (ob & s2 & A & E). apply alloc_vm in A.
  apply bind_inv_ok in E as (u & s3 & K & E). destruct (Nat.leb _ _); [|discriminate K]. injection K as <- <-.
  apply method_call_said in E as (Q & _). cbn [x_vm set_operands] in Q. rewrite A in Q. congruence.
Qed.

Lemma step_said p fuel pr fr s text s1 : consistent p (x_vm s) -> len (fr_code fr) < 2 ^ 63 ->
  step_text pr fuel p fr s = Ok (Some text) s1 -> explains fr s text \/ misleads fr s text.
Proof.
  intros W Lc E. unfold step_text in E. apply bind_inv_ok in E as ([op fr1] & s2 & G & E).
  pose proof (get_opcode_fit _ _ _ _ _ G) as F. pose proof (get_opcode_run fr s) as H. rewrite G in H. destruct H as (-> & C & ->).
  destruct (text_apart op) eqn:T.
  - destruct op; try discriminate T; try (unfold op_text in E; cbn [never_fails] in E; discriminate E); unfold op_text in E; cbn [never_fails] in E;
      match type of C with instruction _ ?b => let b' := eval vm_compute in b in change (code_here fr b') in C end;
      try match type of E with context [len ?b] => let b' := eval vm_compute in (len b) in change (len b) with b' in E end.
    + (* call *)
      left. apply bind_inv_ok in E as ([tok fr1] & s2 & I & E). destruct (operand_token _ _ _ _ _ _ C I) as (t & Ct & Lt & -> & A & ->).
      apply method_call_said in E as (R & _ & ai & Ea & ->). rewrite A in R, Ea.
      refine (missing_method _ _ _ _ _ Ct Lt _ Ea (token_text_ok _ (number_bound _ Lt))).
      intros m D. pose proof (denotes_resolve p _ _ _ _ D). congruence.
    + (* ldstr *)
      left. unfold ldstr_text in E. apply bind_inv_ok in E as ([tok fr1] & s2 & I & E). destruct (operand_token _ _ _ _ _ _ C I) as (t & Ct & Lt & -> & A & ->).
      apply bind_inv_ok in E as (o & s2 & R & E). destruct o; [discriminate E|]. apply said in E as ->. rewrite A in R.
      refine (missing_string _ _ _ _ Ct Lt _ (token_text_ok _ (number_bound _ Lt))).
      intros x D. pose proof (denotes_string_get p _ _ _ _ D) as D'. unfold on_vm in R. rewrite D' in R. discriminate R.
    + (* newobj *) exfalso. exact (newobj_silent _ _ _ _ _ _ E).
    + (* ldfld *)
      left. unfold ldfld_text in E. apply bind_inv_ok in E as ([tok fr1] & s2 & I & E). destruct (operand_token _ _ _ _ _ _ C I) as (t & Ct & Lt & -> & A & ->).
      apply bind_inv_ok in E as (o & s2 & R & E). apply on_vm_inv in R as (R & ->); [|apply pure_resolve_field].
      apply bind_inv_ok in E as (f & s2 & U & E). destruct o as [f'|]; [|discriminate U]. injection U as -> <-.
      apply bind_inv_ok in E as (v & s2 & P & E). apply pop_inv in P as (l & O & ->).
      assert (X : (forall ob, v <> VObject ob) /\ text = bytes_of_string "Cannot load field from " ++ value_text pr v)
        by (destruct v; try discriminate E; apply said in E; (split; [discriminate|exact E])).
      destruct X as [X ->]. exact (loaded_from _ _ _ _ _ _ Ct Lt O X (value_text_ok pr v)).
    + (* stfld *)
      left. unfold stfld_text in E. apply bind_inv_ok in E as ([tok fr1] & s2 & I & E). destruct (operand_token _ _ _ _ _ _ C I) as (t & Ct & Lt & -> & A & ->).
      apply bind_inv_ok in E as (o & s2 & R & E). apply on_vm_inv in R as (R & ->); [|apply pure_resolve_field].
      apply bind_inv_ok in E as (f & s2 & U & E). destruct o as [f'|]; [|discriminate U]. injection U as -> <-.
      apply bind_inv_ok in E as (x & s2 & P & E). apply pop_inv in P as (l0 & O0 & ->).
      apply bind_inv_ok in E as (v & s2 & P & E). apply pop_inv in P as (l & O & ->). cbn [x_operands set_operands] in O. subst l0.
      assert (X : (forall ob, v <> VObject ob) /\ text = bytes_of_string "Cannot store field in " ++ value_text pr v)
        by (destruct v; try discriminate E; apply said in E; (split; [discriminate|exact E])).
      destruct X as [X ->]. exact (stored_in _ _ _ _ _ _ _ Ct Lt O0 X (value_text_ok pr v)).
    + (* ldelem.i4 *)
      unfold ldelem_i4_text in E. apply bind_inv_ok in E as (i & s2 & P & E). unfold pop_i32 in P. apply bind_inv_ok in P as (v & s3 & P & R).
      apply pop_inv in P as (l & O & ->). destruct v as [[]| | |]; try discriminate R. injection R as <- <-.
      destruct (array_text_run p pr (set_operands s _) text s1 W E) as (v & rest & O' & AF). cbn [x_operands set_operands] in O'. subst l.
      assert (AO : array_operand fr s v) by (left; do 2 eexists; split; [exact C|exact O]).
      destruct AF as [shown NA SH|o t n -> OA NM].
      * right. exact (named_stelem _ _ _ _ C AO NA SH).
      * left. exact (array_of_others _ _ _ _ _ AO OA NM).
    + (* stelem.i4 *)
      unfold stelem_i4_text in E. apply bind_inv_ok in E as (i & s2 & P & E). unfold pop_i32 in P. apply bind_inv_ok in P as (v & s3 & P & R).
      apply pop_inv in P as (l & O & ->). destruct v as [[]| | |]; try discriminate R. injection R as <- <-.
      apply bind_inv_ok in E as (i & s2 & P & E). unfold pop_i32 in P. apply bind_inv_ok in P as (v & s3 & P & R).
      apply pop_inv in P as (l' & O1 & ->). destruct v as [[]| | |]; try discriminate R. injection R as <- <-.
      cbn [x_operands set_operands] in O1. subst l.
      destruct (array_text_run p pr (set_operands s _) text s1 W E) as (v & rest & O' & AF). cbn [x_operands set_operands] in O'. subst l'.
      assert (AO : array_operand fr s v) by (right; do 3 eexists; split; [exact C|exact O]).
      left. destruct AF as [shown NA SH|o t n -> OA NM].
      * exact (stelem_on _ _ _ _ C AO NA SH).
      * exact (array_of_others _ _ _ _ _ AO OA NM).
    + (* prefix7 *)
      apply said in E. refine (unimplemented_run fr s Prefix7 text Lc F C (or_intror eq_refl) E).
  - apply (unimplemented_run fr s op text Lc F C (or_introl T)).
    assert (N : never_fails op = false) by (destruct op; try discriminate T; exact T).
    unfold op_text in E. rewrite N in E. destruct op; try discriminate T; exact (said _ _ _ _ E).
Qed.

(** ** C93 *)

(** An instruction that ends with an error gives a text, which starts with that error, and no other
    instruction gives one. *)
Theorem C93_text : forall pr fuel p fr s, consistent p (x_vm s) ->
  (exists e s', step fuel p fr s = Err e s') <-> (exists text s', step_text pr fuel p fr s = Ok (Some text) s').
Proof.
  intros pr fuel p fr s W. pose proof (tl_step (x_vm s) pr fuel p fr W s eq_refl) as T. split.
  - intros (e & s' & E). rewrite E in T. destruct T as (rest & s1 & T). eauto.
  - intros (text & s' & E). destruct (step fuel p fr s) as [o s1|e s1|w|w|]; try (destruct (T _ _ E)). eauto.
Qed.

(** The text says what is wrong and where, with three exceptions. *)
Theorem C93_explained_partial : forall pr fuel p fr s e s', consistent p (x_vm s) -> len (fr_code fr) < 2 ^ 63 ->
  step fuel p fr s = Err e s' ->
  exists text rest s1, step_text pr fuel p fr s = Ok (Some text) s1 /\ text = bytes_of_string e ++ rest /\
    (explains fr s text \/ misleads fr s text).
Proof.
  intros pr fuel p fr s e s' W L E. pose proof (tl_step (x_vm s) pr fuel p fr W s eq_refl) as T. rewrite E in T.
  destruct T as (rest & s1 & T). exists (bytes_of_string e ++ rest), rest, s1. split; [exact T|]. split; [reflexivity|].
  exact (step_said p fuel pr fr s _ s1 W L T).
Qed.

(** The same for what the host sees: an execution that ends with an error does so at an instruction,
    the last one of the execution, and the message is the text of that instruction. *)
Lemma failed_last p :
  (forall fr s t e, runs p fr s t e -> forall w s', e = Failed w s' ->
     exists t0 fr1 s1 f s2, t = t0 ++ [At fr1 s1] /\ step f p fr1 s1 = Err w s2) /\
  (forall m c s t e, calls p m c s t e -> forall w s', e = Failed w s' ->
     exists t0 fr1 s1 f s2, t = t0 ++ [At fr1 s1] /\ step f p fr1 s1 = Err w s2).
Proof.
  apply (traces_ind p
    (fun fr s t e _ => forall w s', e = Failed w s' -> exists t0 fr1 s1 f s2, t = t0 ++ [At fr1 s1] /\ step f p fr1 s1 = Err w s2)
    (fun m c s t e _ => forall w s', e = Failed w s' -> exists t0 fr1 s1 f s2, t = t0 ++ [At fr1 s1] /\ step f p fr1 s1 = Err w s2)).
  - intros f fr s e s' E w s0 X. injection X as <- <-. exists [], fr, s, f, s'. auto.
  - intros f fr s v s' E w s0 X. discriminate X.
  - intros f fr s fr' s' t e E _ IH w s0 X. destruct (IH w s0 X) as (t0 & fr1 & s1 & g & s2 & -> & F).
    exists (At fr s :: t0), fr1, s1, g, s2. auto.
  - intros f fr s g c r fr' s1 t1 v s2 t2 e E C IH1 _ IH2 w s0 X. destruct (IH2 w s0 X) as (t0 & fr1 & sx & h & sy & -> & F).
    exists (At fr s :: t1 ++ t0), fr1, sx, h, sy. split; [|exact F]. cbn [app]. now rewrite app_assoc.
  - intros f fr s g c r fr' s1 t1 e s2 E _ IH1 w s0 X. injection X as <- <-. destruct (IH1 e s2 eq_refl) as (t0 & fr1 & sx & h & sy & -> & F).
    exists (At fr s :: t0), fr1, sx, h, sy. auto.
  - intros g b c s fr s1 t v s2 s3 Ib En _ IH L w s0 X. discriminate X.
  - intros g b c s fr s1 t e s2 s3 Ib En _ IH L w s0 X. injection X as <- <-. exact (IH e s2 eq_refl).
  - intros. discriminate.
Qed.
Theorem C93_execution_partial : forall pr p fs paths s fuel m params e ps s', history p fs paths s -> mt_static m = true ->
  execute fuel p m params s = Ok (RErr e, ps) s' ->
  exists t fr1 s1 s2 f text rest s3, executes p m params s (t ++ [At fr1 s1]) (Failed e s2) /\
    step_text pr f p fr1 s1 = Ok (Some text) s3 /\ text = bytes_of_string e ++ rest /\
    (len (fr_code fr1) < 2 ^ 63 -> explains fr1 s1 text \/ misleads fr1 s1 text).
Proof.
  intros pr p fs paths s fuel m params e ps s' H St E. destruct (history_ok _ _ _ _ H) as (W & _).
  destruct (proj1 (C54_loop_is_trace p m params s (RErr e, ps) s' St) (ex_intro _ fuel E)) as (t & en & X & R & ->).
  assert (Q : exists s2, en = Failed e s2). { destruct en as [[[]|] s2|w s2]; try discriminate R. injection R as <- _. eauto. }
  destruct Q as [s2 ->]. destruct (proj2 (failed_last p) _ _ _ _ _ X e s2 eq_refl) as (t0 & fr1 & s1 & f & sx & -> & F).
  assert (W1 : consistent p (x_vm s1)).
  { pose proof (proj2 (trace_reaches p) _ _ _ _ _ X fr1 s1 (in_or_app _ _ _ (or_intror (in_eq _ _)))) as Re.
    exact (proj1 (reaches_grows p _ _ Re W)). }
  pose proof (tl_step (x_vm s1) pr f p fr1 W1 s1 eq_refl) as T. rewrite F in T. destruct T as (rest & s3 & T).
  exists t0, fr1, s1, s2, f, (bytes_of_string e ++ rest), rest, s3. split; [exact X|]. split; [exact T|]. split; [reflexivity|].
  intro L. exact (step_said p f pr fr1 s1 _ s3 W1 L T).
Qed.

(** The exceptions are exceptions: nothing of what can be wrong with the instruction is said by such a text. *)
Lemma code_same fr a b l l' : code_here fr (a :: l) -> code_here fr (b :: l') -> a = b.
Proof.
  intros (be & af & E & L) (be' & af' & E' & L').
  assert (B : be = be' /\ (a :: l) ++ af = (b :: l') ++ af'). { apply split_same; [congruence|]. unfold len in *. lia. }
  destruct B as [_ B]. now injection B.
Qed.
Lemma no_f8 : forallb (fun e => match fst e with b :: _ => negb (Byte.eqb b xf8) | [] => false end) instructions = true.
Proof. vm_compute. reflexivity. Qed.
Theorem C93_misleading_refuted : forall fr s text, misleads fr s text -> ~ explains fr s text.
Proof.
  intros fr s text M X.
  destruct M as [code mn ds J L C NI O|ds C O|v shown C AO NA SH]; inversion X as
    [code' mn' ds' J' C' NI' O' Q|? ? ? ? ? ? ? ? Q|? ? ? ? ? ? Q|? ? ? ? ? ? ? ? ? ? Q|? ? ? ? ? ? ? ? ? Q|? ? C9 ? ? ? Q|? ? ? ? ? ? Q|? ? ? ? ? ? Q]; try discriminate Q.
  - destruct (C90_one_instruction fr _ _ _ _ J J' C C') as [-> ->]. repeat (injection Q as Q || apply app_inv_head in Q). subst ds'.
    pose proof (hex_inj _ _ _ (proj1 O) (proj1 O')). lia.
  - pose proof (proj1 (forallb_forall _ _) no_f8 _ J') as F. cbn [fst] in F. destruct code' as [|b code']; [discriminate F|].
    rewrite (code_same _ _ _ _ _ C' C) in F. discriminate F.
  - pose proof (code_same _ _ _ _ _ C C9) as D. discriminate D.
Qed.

(** They occur: every instruction of two bytes that the interpreter has not is reported at the wrong offset. *)
Definition two_bytes_apart (op : opcode) : bool :=
  (opcode_code op <? 256) || negb (text_apart op) || existsb (fun e => bytes_eqb (fst e) (opcode_bytes op)) (formats ++ branch_formats ++ [([x2a], 0)]).
Lemma all_two_bytes_apart op : two_bytes_apart op = true.
Proof. destruct op; vm_compute; reflexivity. Qed.
Theorem C93_offset_refuted : forall pr fuel p fr s code mnemonic, PropsMnemonic.known code mnemonic -> List.length code = 2%nat ->
  ~ implemented code -> code_here fr code -> len (fr_code fr) < 2 ^ 63 ->
  exists ds text, step_text pr fuel p fr s = Ok (Some text) s /\
    text = bytes_of_string "Use of unimplemented instruction " ++ bytes_of_string (spelled mnemonic) ++ bytes_of_string " at IL_" ++ ds /\
    hex_number ds (fr_ip fr + 1) /\ ~ explains fr s text.
Proof.
  intros pr fuel p fr s code mn K L NI C Lc. destruct (known_opcode _ _ K) as (op & <- & Nm & P).
  assert (Ta : text_apart op = false).
  { pose proof (all_two_bytes_apart op) as A. unfold two_bytes_apart in A. destruct (text_apart op); [|reflexivity]. exfalso.
    cbn [negb] in A. rewrite orb_false_r in A. apply orb_prop in A as [A|A].
    - unfold opcode_bytes in L. rewrite A in L. discriminate L.
    - apply NI. apply existsb_exists in A as ([b n] & J & A). cbn [fst] in A. apply bytes_eqb_spec in A. subst b. exists n. exact J. }
  assert (E : step_text pr fuel p fr s = Ok (Some (unimplemented_text op (set_ip fr (fr_ip fr + len (opcode_bytes op))))) s).
  { unfold step_text, bind. rewrite (fetch_op fr op s P C). assert (N : never_fails op = false) by (destruct op; try discriminate Ta; exact Ta).
    unfold op_text. rewrite N. destruct op; try discriminate Ta; reflexivity. }
  assert (Li : fr_ip fr < 2 ^ 63). { destruct C as (be & af & X & Y). rewrite Y. unfold len in *. rewrite X, app_length in Lc. lia. }
  assert (Q : fr_ip fr + len (opcode_bytes op) - 1 = fr_ip fr + 1) by (unfold len; rewrite L; lia).
  assert (O : offset_text (fr_ip fr + 1) (hex4 (fr_ip fr + 1))) by (apply hex4_ok; lia).
  assert (T : unimplemented_text op (set_ip fr (fr_ip fr + len (opcode_bytes op))) =
    bytes_of_string "Use of unimplemented instruction " ++ bytes_of_string (spelled mn) ++ bytes_of_string " at IL_" ++ hex4 (fr_ip fr + 1)).
  { unfold unimplemented_text. rewrite !bytes_app, <- !app_assoc, Nm. cbn [set_ip fr_ip]. now rewrite Q. }
  exists (hex4 (fr_ip fr + 1)), (unimplemented_text op (set_ip fr (fr_ip fr + len (opcode_bytes op)))).
  split; [exact E|]. split; [exact T|]. split; [exact (proj1 O)|]. rewrite T.
  apply C93_misleading_refuted. refine (second_byte _ _ _ _ _ (proj1 K) L C _ O). intros n J. apply NI. exists n. exact J.
Qed.

(** [ldelem.i4] on something that is no array is always reported as the other instruction. *)
Theorem C93_ldelem_refuted : forall pr fuel p fr s i v rest, code_here fr [x94] -> x_operands s = VInt I32 i :: v :: rest -> no_array s v ->
  exists shown text s', step_text pr fuel p fr s = Ok (Some text) s' /\ value_shown v shown /\
    text = bytes_of_string "Invalid operation: Stelem on " ++ shown /\ ~ explains fr s text.
Proof.
  intros pr fuel p fr s i v rest C O NA.
  assert (E : exists s', step_text pr fuel p fr s = Ok (Some (bytes_of_string "Invalid operation: Stelem on " ++ value_text pr v)) s').
  { unfold step_text. rewrite bind_at.
    rewrite (fetch_op fr Ldelem_I4 s); [|intros [X _]; vm_compute in X; discriminate X|exact C].
    cbv beta iota. unfold op_text, ldelem_i4_text.
    assert (P1 : pop_i32 s = Ok i (set_operands s (v :: rest))) by (unfold pop_i32, pop, try_pop, bind; rewrite O; reflexivity).
    rewrite bind_at, P1. cbv beta iota. unfold array_text.
    assert (P2 : pop (set_operands s (v :: rest)) = Ok v (set_operands (set_operands s (v :: rest)) rest)) by reflexivity.
    rewrite bind_at, P2. cbv beta iota. destruct v as [t x|b|b|o]; try (eexists; reflexivity).
    destruct (NA o eq_refl) as (flags & S & B).
    assert (P3 : as_array o (set_operands (set_operands s (VObject o :: rest)) rest) = Ok false (set_operands (set_operands s (VObject o :: rest)) rest)).
    { unfold as_array, flags_of. rewrite !bind_at.
      rewrite (load_stored (set_operands (set_operands s (VObject o :: rest)) rest) o 0 1 [flags] S eq_refl). cbv beta iota. unfold ret.
      f_equal. destruct flags; try discriminate B; reflexivity. }
    rewrite bind_at, P3. cbv beta iota.
    eexists. reflexivity. }
  destruct E as [s' E]. exists (value_text pr v), (bytes_of_string "Invalid operation: Stelem on " ++ value_text pr v), s'.
  split; [exact E|]. split; [apply value_text_ok|]. split; [reflexivity|]. apply C93_misleading_refuted.
  refine (named_stelem _ _ v _ C _ NA (value_text_ok pr v)). left. exists i, rest. split; [exact C|exact O].
Qed.

(** Asked to execute an instance method, the API names it, with the type that declares it. *)
Theorem C93_entry : forall fuel p m params s n, mt_static m = false -> is_named (c_types s) (mt_declaring m) n ->
  exists e rest, execute fuel p m params s = Ok (RErr e, params) s /\ entry_text m s = Ok (Some (bytes_of_string e ++ rest)) s /\
    bytes_of_string e ++ rest = bytes_of_string "Cannot use non-static method " ++ n ++ bytes_of_string "." ++ mt_name m ++ bytes_of_string " as entry point".
Proof.
  intros fuel p m params s n St (ti & E & <-). eexists. eexists. unfold execute, entry_text. rewrite St. cbn [negb].
  unfold type_text, bind, the_type. rewrite E. cbn [ret]. split; [reflexivity|].
  split; [|exact (eq_refl (bytes_of_string "Cannot use non-static method" ++ bytes_of_string " " ++ _))]. reflexivity.
Qed.

(** ** Examples *)

Definition plain : printers := mkPrinters (fun _ => bytes_of_string "1.0") (fun _ => bytes_of_string "1.0") (fun _ => bytes_of_string "0x7f00").

(** [throw] behind 15 bytes, [stfld] on a number. *)
Example C93_text_ex : exists e s', step 0 Debug (set_ip (example_frame (repeat x00 15 ++ [x7a])) 15) (example_machine []) = Err e s'.
Proof. eexists. eexists. vm_compute. reflexivity. Qed.
Example C93_explained_ex : consistent Debug (x_vm (example_machine [])) /\
  step_text plain 0 Debug (set_ip (example_frame (repeat x00 15 ++ [x7a])) 15) (example_machine []) =
    Ok (Some (bytes_of_string "Use of unimplemented instruction Throw at IL_000f")) (example_machine []).
Proof. split; [exact (proj1 (history_ok _ _ _ _ (demo_app_history Debug)))|vm_compute; reflexivity]. Qed.
Example C93_string_ex : exists s', step_text plain 0 Debug (example_frame [x72; x01; x00; x00; x06]) (example_machine []) =
  Ok (Some (bytes_of_string "Cannot find string for token 0x06000001")) s'.
Proof. eexists. vm_compute. reflexivity. Qed.
Example C93_value_ex : value_text plain (VInt I64 (-120)) = bytes_of_string "I64(-120)".
Proof. reflexivity. Qed.
(** A method whose code has an instruction that the interpreter does not support. *)
Example C93_execution_ex p : history p no_files [] demo_app /\ mt_static (DemoRuns.app "Guarded") = true /\
  exists w, execute 100 p (DemoRuns.app "Guarded") [] demo_app = Ok (RErr w, []) demo_app.
Proof.
  split; [apply demo_app_history|]. split; [vm_compute; reflexivity|]. eexists. destruct p; vm_compute; reflexivity.
Qed.
(** [ldftn], 0xfe 0x06: the text gives the offset 1 of its second byte. *)
Example C93_offset_ex : PropsMnemonic.known [xfe; x06] "ldftn" /\ ~ implemented [xfe; x06] /\
  code_here (example_frame ([xfe; x06] ++ [x2a])) [xfe; x06] /\
  step_text plain 0 Debug (example_frame [xfe; x06; x2a]) (example_machine []) =
    Ok (Some (bytes_of_string "Use of unimplemented instruction Ldftn at IL_0001")) (example_machine []).
Proof.
  split; [|split; [|split; [apply example_code|vm_compute; reflexivity]]].
  - split; [|discriminate].
    assert (F : existsb (fun e => bytes_eqb (fst e) [xfe; x06] && String.eqb (snd e) "ldftn") instructions = true) by (vm_compute; reflexivity).
    apply existsb_exists in F. destruct F as [[k m] [F1 F2]]. cbn [fst snd] in F2. apply andb_prop in F2.
    destruct F2 as [F2 F3]. apply bytes_eqb_spec in F2. apply String.eqb_eq in F3. now subst.
  - intros [n H]. vm_compute in H. repeat (destruct H as [H|H]; [discriminate|]). exact H.
Qed.
Example C93_ldelem_ex : exists s',
  step_text plain 0 Debug (example_frame [x94; x2a]) (example_machine [VInt I32 0; VInt I32 7]) =
    Ok (Some (bytes_of_string "Invalid operation: Stelem on I32(7)")) s' /\ no_array (example_machine [VInt I32 0; VInt I32 7]) (VInt I32 7).
Proof. eexists. split; [vm_compute; reflexivity|]. intros o X. discriminate X. Qed.
Example C93_misleading_ex : misleads (example_frame ([xf8] ++ [x2a])) (example_machine [])
  (bytes_of_string "Use of unimplemented instruction Prefix7 at IL_" ++ bytes_of_string "0000").
Proof. apply no_instruction; [apply example_code|]. exact (hex4_ok 0 eq_refl). Qed.
Definition an_instance : method_info := mkMethod (bytes_of_string "M") (mt_declaring (DemoRuns.app "Guarded")) (mt_return (DemoRuns.app "Guarded")) [] (mt_impl (DemoRuns.app "Guarded")) false false false.
Example C93_entry_ex : mt_static an_instance = false /\ exists n, is_named (c_types demo_app) (mt_declaring an_instance) n.
Proof. split; [reflexivity|]. eexists. eexists. split; [vm_compute; reflexivity|reflexivity]. Qed.

Print Assumptions C93_text.
Print Assumptions C93_explained_partial.
Print Assumptions C93_execution_partial.
Print Assumptions C93_misleading_refuted.
Print Assumptions C93_offset_refuted.
Print Assumptions C93_ldelem_refuted.
Print Assumptions C93_entry.

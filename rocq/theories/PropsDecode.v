(** Operands of instructions and unsupported instructions: C48 and C59. *)
From Coq Require Import NArith ZArith String List Bool Lia.
From Coq.Strings Require Import Byte.
From Verif Require Import Base BaseFacts Metadata Runtime Value Opcodes Gc Interp SpecExec InterpFacts DemoStates PropsValue.
Import ListNotations.
Open Scope N_scope.

(** ** Where an instruction leaves the instruction pointer *)

(** The frame that an outcome goes on with is at [ip]. *)
Definition goes_on (fr : frame) (ip : N) (o : outcome) : Prop :=
  match o with
  | ONext fr' | OCall _ _ _ fr' => frame_at fr fr' ip
  | OReturn _ => False
  end.

(** Every way in which [m] succeeds satisfies [P]. *)
Definition yields {S A} (m : M S A) (P : A -> Prop) : Prop := forall s a s', m s = Ok a s' -> P a.

Lemma yields_ret {S A} (a : A) (P : A -> Prop) : P a -> yields (@ret S A a) P.
Proof. intros H s a' s' E. injection E as <- _. exact H. Qed.
Lemma yields_bind {S A B} (m : M S A) (k : A -> M S B) (P : B -> Prop) :
  (forall a, yields (k a) P) -> yields (bind m k) P.
Proof. intros H s b s' E. unfold bind in E. destruct (m s) eqn:D; try easy. eapply H; eauto. Qed.
Lemma yields_fail {S A} e (P : A -> Prop) : yields (@fail S A e) P.
Proof. intros s a s' E. discriminate. Qed.
Lemma yields_panic {S A} e (P : A -> Prop) : yields (@panic S A e) P.
Proof. intros s a s' E. discriminate. Qed.

Lemma goes_on_next fr fr' ip : frame_at fr fr' ip -> yields (next fr') (goes_on fr ip).
Proof. intro H. now apply yields_ret. Qed.

Ltac yield :=
  repeat (cbv beta iota zeta;
    match goal with
    | |- yields (next _) _ => apply goes_on_next
    | |- yields (bind _ _) _ => apply yields_bind; intro
    | |- yields (ret (OCall _ _ _ _)) _ => apply yields_ret; cbn [goes_on]
    | |- yields (match ?x with _ => _ end) _ => destruct x
    | |- yields (fail _) _ => apply yields_fail
    | |- yields (panic _) _ => apply yields_panic
    end).

Lemma yields_method_call p fr fr' ip tok r : frame_at fr fr' ip -> yields (method_call p fr' tok r) (goes_on fr ip).
Proof. intro F. unfold method_call. yield; assumption. Qed.

(** With the operand fetched. *)
Lemma fetched {A} fr n bs (k : N * frame -> M machine A) s : code_here fr bs -> len bs = n ->
  (x <- il_get fr n ;; k x) s = k (le_dec bs, set_ip fr (fr_ip fr + n)) s.
Proof. intros C L. unfold bind. now rewrite (il_get_here fr bs n s C L). Qed.
Lemma fetched_signed {A} fr n bs (k : Z * frame -> M machine A) s : code_here fr bs -> len bs = n -> n <> 0 ->
  (x <- il_signed fr n ;; k x) s = k (signed_number bs, set_ip fr (fr_ip fr + n)) s.
Proof. intros C L NZ. unfold bind. now rewrite (il_signed_here fr bs n s C L NZ). Qed.

(** C48: every supported instruction that does not branch, except the long forms of ldarg and starg,
    leaves the instruction pointer behind its operand. *)
Theorem C48_size_partial : forall fuel p fr s code n operand o s',
  In (code, n) formats -> code <> [xfe; x09] -> code <> [xfe; x0b] ->
  code_here fr (code ++ operand) -> len operand = n ->
  step fuel p fr s = Ok o s' -> goes_on fr (fr_ip fr + len code + n) o.
Proof.
  intros fuel p fr s code n operand o s' F NA NS C L E.
  pose proof (code_here_drop _ _ _ C) as C'.
  assert (FA : forall k fr0, fr0 = set_ip fr (fr_ip fr + len code) -> frame_at fr (set_ip fr0 (fr_ip fr + len code + k)) (fr_ip fr + len code + k))
    by (intros k fr0 ->; unfold frame_at; cbn; auto 10).
  assert (FA0 : n = 0 -> frame_at fr (set_ip fr (fr_ip fr + len code)) (fr_ip fr + len code + n))
    by (intros ->; rewrite N.add_0_r; apply frame_at_set).
  specialize (FA n _ eq_refl).
  revert o s' E.
  cut (exists m : M machine outcome, yields m (goes_on fr (fr_ip fr + len code + n)) /\ step fuel p fr s = m s).
  { intros (m & Y & ->). intros. eapply Y; eauto. }
  unfold formats in F. cbn [In] in F.
  repeat (destruct F as [F|F]; [injection F as <- <-; try contradiction|]); [..|contradiction F].
  all: cbn [app] in C; (step_at2 C || step_at C).
  all: change (len [_]) with 1 in *; change (len [_; _]) with 2 in *.
  all: try (eexists; split; [|reflexivity]; specialize (FA0 eq_refl);
            unfold ldc, ld, st, op1, op2, compare, stelem_i4, ldelem_i4; yield; exact FA0).
  all: try (eexists; split; [|unfold ld_n, st_n, newobj, ldfld, stfld, newarr, ldstr;
                              (rewrite (fetched _ _ operand _ s C' L) || rewrite (fetched_signed _ _ operand _ s C' L) by easy);
                              reflexivity];
            cbv beta iota; unfold ldc, ld, st; yield; (exact FA || (apply yields_method_call; exact FA))).
Qed.

(** ** Constants *)

(** C48: the constant that is pushed is the one in the code. *)
Theorem C48_constants : forall fuel p fr s code v,
  constant_code code v -> code_here fr code -> continues fr s (len code) (v :: x_operands s) (step fuel p fr s).
Proof.
  intros fuel p fr s code v K C.
  assert (FIN : forall n fr0 w, fr0 = set_ip fr (fr_ip fr + n) -> continues fr s n (w :: x_operands s) (ldc fr0 w s)).
  { intros n fr0 w ->. exists (set_ip fr (fr_ip fr + n)), (set_operands s (w :: x_operands s)).
    split; [reflexivity|]. split; [apply frame_at_set|apply operands_set]. }
  destruct K; try (step_at C; now apply FIN).
  all: match type of C with
       | code_here _ (?b :: ?l) =>
           pose proof (code_here_drop fr [b] l C) as C'; change (len [b]) with 1 in C';
           apply (code_here_prefix fr [b] l) in C; step_at C;
           rewrite ?number_le_dec, ?N2Z.id;
           ((rewrite (fetched _ _ l _ s C') by reflexivity) || (rewrite (fetched_signed _ _ l _ s C') by easy))
       end.
  all: match goal with |- continues _ _ ?k _ _ => let v := eval vm_compute in k in change k with v end.
  all: apply FIN; cbn [fr_ip set_ip]; rewrite <- N.add_assoc; reflexivity.
Qed.

(** ** Variables *)

Lemma variable_get s c i v : variable s c i v -> cell_get c i s = Ok v s.
Proof.
  destruct c as [|g base n]; cbn [variable cell_get].
  - now intros ->.
  - intros (-> & L & E). destruct (N.leb_spec n i); [lia|]. now rewrite Nat.eqb_refl, E.
Qed.

(** C48: the variable that is loaded is the one whose number is in the code. *)
Theorem C48_load_variable : forall fuel p fr s code argument i v,
  load_code code argument i -> code_here fr code -> variable s (group fr argument) i v ->
  continues fr s (len code) (v :: x_operands s) (step fuel p fr s).
Proof.
  intros fuel p fr s code argument i v K C V.
  assert (FIN : forall n fr0 c j, fr0 = set_ip fr (fr_ip fr + n) -> cell_get c j s = Ok v s ->
            continues fr s n (v :: x_operands s) (ld fr0 c j s)).
  { intros n fr0 c j -> G. exists (set_ip fr (fr_ip fr + n)), (set_operands s (v :: x_operands s)).
    split; [unfold ld, bind; rewrite G; reflexivity|]. split; [apply frame_at_set|apply operands_set]. }
  apply variable_get in V.
  destruct K; cbn [group] in V; try (step_at C; now apply FIN).
  all: match type of C with
       | code_here _ (xfe :: ?b :: ?l) =>
           pose proof (code_here_drop fr [xfe; b] l C) as C'; change (len [xfe; b]) with 2 in C';
           apply (code_here_prefix fr [xfe; b] l) in C; step_at2 C;
           unfold ld_n; rewrite (fetched _ _ l _ s C') by reflexivity
       | code_here _ (?b :: ?l) =>
           pose proof (code_here_drop fr [b] l C) as C'; change (len [b]) with 1 in C';
           apply (code_here_prefix fr [b] l) in C; step_at C;
           unfold ld_n; rewrite (fetched _ _ l _ s C') by reflexivity
       end; rewrite number_le_dec, N2Z.id in V.
  all: match goal with |- continues _ _ ?k _ _ => let v := eval vm_compute in k in change k with v end.
  all: apply FIN; [cbn [fr_ip set_ip]; rewrite <- N.add_assoc; reflexivity|exact V].
Qed.

Lemma update_length {A} (l : list A) i f : List.length (update l i f) = List.length l.
Proof. revert i; induction l; intros [|i]; cbn; congruence. Qed.
Lemma update_same {A} (l : list A) i v : (i < List.length l)%nat -> nth_error (update l i (fun _ => v)) i = Some v.
Proof. revert i; induction l; intros [|i] H; cbn in *; try lia; [reflexivity|]. apply IHl. lia. Qed.
Lemma update_other {A} (l : list A) i j f : j <> i -> nth_error (update l i f) j = nth_error l j.
Proof. revert i j; induction l; intros [|i] [|j] H; cbn; try easy. apply IHl. lia. Qed.

Theorem C48_store_variable : forall fuel p fr s code argument i w v l,
  store_code code argument i -> code_here fr code -> variable s (group fr argument) i w ->
  x_operands s = v :: l -> stores fr s (len code) (group fr argument) i v l (step fuel p fr s).
Proof.
  intros fuel p fr s code argument i w v l K C V E.
  assert (FIN : forall n fr0 c j, fr0 = set_ip fr (fr_ip fr + n) -> variable s c j w ->
            stores fr s n c j v l (st fr0 c j s)).
  { intros n fr0 c j -> G. unfold st, bind. rewrite (pop_run s v l E).
    destruct c as [|g base m]; cbn [variable] in G; cbn [cell_set set_operands x_host x_frames].
    - assert (L : (N.to_nat j < List.length (x_host s))%nat) by (apply nth_error_Some; congruence).
      destruct (N.leb_spec (len (x_host s)) j); [unfold len in *; lia|].
      eexists _, _. split; [reflexivity|]. split; [apply frame_at_set|].
      cbn. rewrite update_length. repeat (split; [reflexivity|]).
      split; [now apply update_same|]. repeat (split; [reflexivity|]).
      intros k NE. now apply update_other.
    - destruct G as (-> & JM & G).
      assert (L : (N.to_nat (base + j) < List.length (k_cells (x_frames s)))%nat) by (apply nth_error_Some; congruence).
      destruct (N.leb_spec m j); [lia|]. rewrite Nat.eqb_refl. cbn [negb].
      destruct (N.leb_spec (len (k_cells (x_frames s))) (base + j)); [unfold len in *; lia|].
      eexists _, _. split; [reflexivity|]. split; [apply frame_at_set|].
      cbn. rewrite update_length. repeat (split; [reflexivity|]).
      split; [split; [reflexivity|]; split; [lia|]; now apply update_same|].
      repeat (split; [reflexivity|]).
      intros k NE. now apply update_other. }
  destruct K; cbn [group] in V |- *; try (step_at C; now apply FIN).
  all: match type of C with
       | code_here _ (xfe :: ?b :: ?l) =>
           pose proof (code_here_drop fr [xfe; b] l C) as C'; change (len [xfe; b]) with 2 in C';
           apply (code_here_prefix fr [xfe; b] l) in C; step_at2 C;
           unfold st_n; rewrite (fetched _ _ l _ s C') by reflexivity
       | code_here _ (?b :: ?l) =>
           pose proof (code_here_drop fr [b] l C) as C'; change (len [b]) with 1 in C';
           apply (code_here_prefix fr [b] l) in C; step_at C;
           unfold st_n; rewrite (fetched _ _ l _ s C') by reflexivity
       end; rewrite number_le_dec, N2Z.id in V |- *.
  all: match goal with |- stores _ _ ?k _ _ _ _ _ => let v := eval vm_compute in k in change k with v end.
  all: apply FIN; [cbn [fr_ip set_ip]; rewrite <- N.add_assoc; reflexivity|exact V].
Qed.

(** ** The long forms of ldarg and starg *)

(** They take four bytes of operand where ECMA-335 (III.3.38, III.3.61) has two: the next two bytes
    of code become part of the number of the argument and are skipped... *)
Theorem C48_long_argument_refuted : forall fuel p fr s i j a b v,
  code_here fr [xfe; x09; i; j; a; b] -> variable s (fr_params fr) (Z.to_N (number [i; j; a; b])) v ->
  continues fr s 6 (v :: x_operands s) (step fuel p fr s).
Proof.
  intros fuel p fr s i j a b v C V.
  pose proof (code_here_drop fr [xfe; x09] [i; j; a; b] C) as C'. change (len [xfe; x09]) with 2 in C'.
  apply (code_here_prefix fr [xfe; x09] [i; j; a; b]) in C. step_at2 C.
  unfold ld_n. rewrite (fetched _ _ [i; j; a; b] _ s C') by reflexivity.
  rewrite number_le_dec, N2Z.id in V. apply variable_get in V.
  cbv beta iota. unfold ld, bind. cbn [fr_ip set_ip fr_params]. rewrite V.
  exists (set_ip fr (fr_ip fr + 6)), (set_operands s (v :: x_operands s)).
  split; [|split; [apply frame_at_set|apply operands_set]].
  rewrite <- N.add_assoc. reflexivity.
Qed.

(** ... and when the code ends before that, memory behind the code is read. *)
Theorem C48_long_argument_end_refuted : forall fuel p fr s before i j after,
  fr_code fr = before ++ [xfe; x09; i; j] ++ after -> fr_ip fr = len before -> len after < 2 ->
  exists why, step fuel p fr s = Ub why.
Proof.
  intros fuel p fr s before i j after C I L.
  assert (H : code_here fr [xfe; x09]) by (exists before, ([i; j] ++ after); auto).
  step_at2 H. unfold ld_n, bind, il_get. cbn [fr_ip set_ip fr_code]. rewrite C, I, !len_app.
  change (len [xfe; x09; i; j]) with 4.
  destruct (N.leb_spec (len before + 2 + 4) (len before + (4 + len after))); [lia|]. now eexists.
Qed.

(** ** C59 *)

(** The bytes of an opcode (one or two, the prefix first), and the opcodes of the tables above. *)
Definition opcode_bytes (op : opcode) : list byte :=
  if opcode_code op <? 256 then [nb (opcode_code op)]
  else [nb (opcode_code op / 256); nb (opcode_code op mod 256)].
Definition implemented (bs : list byte) : Prop := exists n, In (bs, n) (formats ++ branch_formats ++ [([x2a], 0)]).

(** Bytes above 0xf8 are only prefixes, although the table of opcodes lists some on their own. *)
Definition prefix_only (op : opcode) : Prop := 0xf8 < opcode_code op /\ opcode_code op < 256.

Lemma from_u16_code op : from_u16 (opcode_code op) = Some op.
Proof. now destruct op. Qed.
Lemma opcode_code_bound op : opcode_code op < 65536.
Proof. now destruct op. Qed.
Lemma opcode_code_high op : 256 <= opcode_code op -> 0xf8 < opcode_code op / 256.
Proof. destruct op; vm_compute; easy. Qed.

Lemma fetch_op fr op s : ~ prefix_only op -> code_here fr (opcode_bytes op) ->
  get_opcode fr s = Ok (op, set_ip fr (fr_ip fr + len (opcode_bytes op))) s.
Proof.
  intros NP C. pose proof (opcode_code_bound op). unfold opcode_bytes in *.
  destruct (N.ltb_spec (opcode_code op) 256).
  - assert (bn (nb (opcode_code op)) = opcode_code op) by now apply bn_nb_small.
    apply (fetch1 fr _ [] op s C); rewrite H1; [|apply from_u16_code].
    unfold prefix_only in NP. lia.
  - pose proof (opcode_code_high op H0).
    assert (bn (nb (opcode_code op / 256)) = opcode_code op / 256)
      by (apply bn_nb_small, N.div_lt_upper_bound; lia).
    assert (bn (nb (opcode_code op mod 256)) = opcode_code op mod 256)
      by (apply bn_nb_small, N.mod_lt; lia).
    apply (fetch2 fr _ _ [] op s C); rewrite H2; [assumption|]. rewrite H3.
    clear. now destruct op.
Qed.

Definition format_of (bs : list byte) : option N :=
  option_map snd (find (fun e => bytes_eqb bs (fst e)) (formats ++ branch_formats ++ [([x2a], 0)])).
Lemma format_implemented bs n : format_of bs = Some n -> implemented bs.
Proof.
  unfold format_of. destruct (find _ _) as [[k m]|] eqn:F; [|easy]. intros _.
  apply find_some in F. destruct F as [F B]. apply bytes_eqb_spec in B. cbn in B. subst k. now exists m.
Qed.

Theorem C59_unsupported_instruction : forall fuel p fr s op,
  ~ prefix_only op -> ~ implemented (opcode_bytes op) -> code_here fr (opcode_bytes op) ->
  step fuel p fr s = Err ("Use of unimplemented instruction " ++ opcode_name op) s.
Proof.
  intros fuel p fr s op NP NI C. unfold step, bind. rewrite (fetch_op fr op s NP C).
  destruct (format_of (opcode_bytes op)) as [n|] eqn:F; [exfalso; apply NI; eapply format_implemented; eauto|].
  clear - F. destruct op; (reflexivity || (vm_compute in F; discriminate)).
Qed.

(** A method that runs into such an instruction ends with that error, and what was printed before
    stays as it is. *)
Theorem C59_unsupported_run : forall fuel p fr s op,
  ~ prefix_only op -> ~ implemented (opcode_bytes op) -> code_here fr (opcode_bytes op) ->
  run (S fuel) p fr s = Err ("Use of unimplemented instruction " ++ opcode_name op) s.
Proof.
  intros fuel p fr s op NP NI C. cbn [run]. unfold bind.
  now rewrite (C59_unsupported_instruction fuel p fr s op NP NI C).
Qed.

(** ** Examples *)

(** Ldc.i4 0x12345678 at address 1, then ret. *)
Example C48_example :
  continues (set_ip (example_frame [x00; x20; x78; x56; x34; x12; x2a]) 1) (example_machine []) 5 [VInt I32 0x12345678]
    (step 0 Debug (set_ip (example_frame [x00; x20; x78; x56; x34; x12; x2a]) 1) (example_machine [])) /\
  (forall o s', step 0 Debug (set_ip (example_frame [x00; x20; x78; x56; x34; x12; x2a]) 1) (example_machine []) = Ok o s' ->
     goes_on (set_ip (example_frame [x00; x20; x78; x56; x34; x12; x2a]) 1) 6 o).
Proof.
  split.
  - refine (C48_constants 0 Debug _ (example_machine []) [x20; x78; x56; x34; x12] _ (is_ldc_i4 _ _ _ _) _).
    exists [x00], [x2a]. split; reflexivity.
  - intros o s' E. refine (C48_size_partial 0 Debug _ (example_machine []) [x20] 4 [x78; x56; x34; x12] o s' _ _ _ _ eq_refl E).
    + cbn [formats In]. repeat (try (left; reflexivity); right).
    + discriminate.
    + discriminate.
    + exists [x00], [x2a]. split; reflexivity.
Qed.

(** A frame with two local variables and one argument in the frame storage. *)
Definition example_vars (code : list byte) : frame := mkFrame example_method 2%nat code 0 (CFrames 0 1 2) (CFrames 0 0 1).
Definition example_stack (l : list value) : machine :=
  set_frames (example_machine l) (mkFrames 0 64 [VInt I32 10; VInt I32 20; VInt I32 30]).
Example C48_example_variables :
  continues (example_vars [x11; x01; x2a]) (example_stack []) 2 [VInt I32 30]
    (step 0 Debug (example_vars [x11; x01; x2a]) (example_stack [])) /\
  stores (example_vars [x10; x00; x2a]) (example_stack [VInt I32 5]) 2 (CFrames 0 0 1) 0 (VInt I32 5) []
    (step 0 Debug (example_vars [x10; x00; x2a]) (example_stack [VInt I32 5])).
Proof.
  split.
  - refine (C48_load_variable 0 Debug (example_vars [x11; x01; x2a]) (example_stack []) [x11; x01] false 1 _ (is_ldloc_s x01) _ _).
    + exists [], [x2a]. split; reflexivity.
    + cbn. repeat split; lia.
  - refine (C48_store_variable 0 Debug (example_vars [x10; x00; x2a]) (example_stack [VInt I32 5]) [x10; x00] true 0 _ _ _ (is_starg_s x00) _ _ eq_refl).
    + exists [], [x2a]. split; reflexivity.
    + cbn. split; [reflexivity|]. split; [lia|]. reflexivity.
Qed.

(** Ldarg 0 followed by two nop instructions skips both. *)
Example C48_example_long :
  continues (example_vars [xfe; x09; x00; x00; x00; x00; x2a]) (example_stack []) 6 [VInt I32 10]
    (step 0 Debug (example_vars [xfe; x09; x00; x00; x00; x00; x2a]) (example_stack [])) /\
  exists why, step 0 Debug (example_vars [xfe; x09; x00; x00; x2a]) (example_stack []) = Ub why.
Proof.
  split.
  - refine (C48_long_argument_refuted 0 Debug (example_vars [xfe; x09; x00; x00; x00; x00; x2a]) (example_stack []) x00 x00 x00 x00 _ _ _).
    + exists [], [x2a]. split; reflexivity.
    + cbn. split; [reflexivity|]. split; [lia|]. reflexivity.
  - exact (C48_long_argument_end_refuted 0 Debug (example_vars [xfe; x09; x00; x00; x2a]) (example_stack []) [] x00 x00 [x2a]
      eq_refl eq_refl eq_refl).
Qed.

(** Callvirt is defined but not implemented. *)
Example C59_example :
  run 1 Debug (example_frame [x6f; x01; x00; x00; x06]) (example_machine []) =
  Err "Use of unimplemented instruction Callvirt" (example_machine []).
Proof.
  refine (C59_unsupported_run 0 Debug (example_frame [x6f; x01; x00; x00; x06]) (example_machine []) Callvirt _ _ _).
  - unfold prefix_only. vm_compute. intros [K _]. discriminate.
  - intros [n H]. vm_compute in H. repeat (destruct H as [H|H]; [discriminate|]). exact H.
  - exists [], [x01; x00; x00; x06]. split; reflexivity.
Qed.

Print Assumptions C48_size_partial.
Print Assumptions C48_constants.
Print Assumptions C48_load_variable.
Print Assumptions C48_store_variable.
Print Assumptions C48_long_argument_refuted.
Print Assumptions C48_long_argument_end_refuted.
Print Assumptions C59_unsupported_instruction.
Print Assumptions C59_unsupported_run.

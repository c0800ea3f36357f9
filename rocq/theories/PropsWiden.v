(** Property C83: numbers are widened when they are loaded and narrowed when they are stored. *)
From Coq Require Import NArith ZArith String List Bool Lia.
From Coq.Strings Require Import Byte.
From Verif Require Import Base BaseFacts Metadata Tables Runtime Loader Value Opcodes Gc Interp SpecExec SpecRuntime SpecHistory SpecHeap
  SpecStack SpecBytes RuntimeInv HistoryProofs InterpInv InterpFacts FrameFacts VmFacts StackFacts PropsDecode TypeFacts HeapFacts FieldFacts
  DemoImages DemoFacts DemoStates DemoRuns PropsHeap PropsValue PropsScopes SpecTypes SpecWiden.
Import ListNotations.
Open Scope N_scope.

(** The types of fields whose values are of a type that the stack has. *)
Definition as_on_stack (v : value) : Prop :=
  match v with VInt t _ => t = I32 \/ t = I64 | VF32 _ | VF64 _ => True | VObject _ => False end.

Lemma widened_only t x w : t <> I32 -> t <> I64 -> widened (VInt t x) w -> w <> VInt t x.
Proof. intros A B W E. inversion W; subst; congruence. Qed.

Lemma signed_range bs : bs <> [] -> (- 2 ^ (8 * Z.of_nat (List.length bs) - 1) <= signed_number bs < 2 ^ (8 * Z.of_nat (List.length bs) - 1))%Z.
Proof.
  intro NE. unfold signed_number. assert (B : (0 <= number bs < 2 ^ (8 * Z.of_nat (List.length bs)))%Z).
  { rewrite number_le_dec. pose proof (le_dec_bound bs) as B. replace (8 * Z.of_nat (List.length bs))%Z with (Z.of_N (8 * len bs)) by (unfold len; lia).
    change 2%Z with (Z.of_N 2). rewrite <- N2Z.inj_pow, N.pow_mul_r. change (2 ^ 8) with 256. lia. }
  assert (L : (0 < Z.of_nat (List.length bs))%Z) by (destruct bs; [congruence|cbn; lia]).
  set (k := (8 * Z.of_nat (List.length bs) - 1)%Z) in *. assert (E : (8 * Z.of_nat (List.length bs) = k + 1)%Z) by lia. rewrite E in *.
  rewrite Z.pow_add_r in * by lia. change (2 ^ 1)%Z with 2%Z in *.
  destruct (Z.ltb_spec (number bs) (2 ^ k)); lia.
Qed.
Lemma stack_value v bs : represents v bs -> as_on_stack v -> widened v v.
Proof.
  intros R S. destruct v as [t x| | |]; cbn in S; [|constructor..|destruct S].
  assert (G : isigned t = true -> signed_number bs = x -> 8 * len bs = ibits t -> widened (VInt t x) (VInt t x)).
  { intros _ E L. assert (NE : bs <> []) by (intros ->; destruct S as [-> | ->]; discriminate L).
    pose proof (signed_range bs NE) as B. rewrite E in B. unfold len in L.
    destruct S as [-> | ->]; cbn [ibits] in L.
    - assert (Ln : List.length bs = 4%nat) by lia. rewrite Ln in B. change (8 * Z.of_nat 4 - 1)%Z with 31%Z in B.
      constructor; [cbn; lia|exact B|]. now rewrite Z.sub_diag.
    - assert (Ln : List.length bs = 8%nat) by lia. rewrite Ln in B. change (8 * Z.of_nat 8 - 1)%Z with 63%Z in B.
      constructor; [cbn; lia|exact B|]. now rewrite Z.sub_diag. }
  inversion R as [t' x' bs' Sg L E|t' x' bs' Sg L E| |]; subst; [destruct S as [-> | ->]; discriminate Sg|auto].
Qed.

(** C83 for fields of the types that the stack has: what is loaded is what the standard says. *)
Theorem C83_field_partial fuel p fr s bs f o v rest : ready p (x_vm s) ->
  code_here fr (x7b :: bs) -> List.length bs = 4%nat ->
  denotes_field (x_vm s) (fr_assembly fr) (Z.to_N (number bs)) f -> x_operands s = VObject o :: rest ->
  field_value s o f v -> as_on_stack v ->
  exists w, widened v w /\ continues fr s 5 (w :: rest) (step fuel p fr s).
Proof.
  intros Rd C L D O F S. exists v. pose proof F as (_ & _ & b & R & _). split; [exact (stack_value _ _ R S)|].
  exact (C41_load fuel p fr s bs f o v rest Rd C L D O F).
Qed.
Print Assumptions C83_field_partial.

(** It is false of fields of all other integer types: their values are on the stack as they are. *)
Theorem C83_field_refuted fuel p fr s bs f o t x rest : ready p (x_vm s) ->
  code_here fr (x7b :: bs) -> List.length bs = 4%nat ->
  denotes_field (x_vm s) (fr_assembly fr) (Z.to_N (number bs)) f -> x_operands s = VObject o :: rest ->
  field_value s o f (VInt t x) -> t <> I32 -> t <> I64 ->
  exists v, continues fr s 5 (v :: rest) (step fuel p fr s) /\ ~ widened (VInt t x) v.
Proof.
  intros Rd C L D O F A B. exists (VInt t x). split; [exact (C41_load fuel p fr s bs f o _ rest Rd C L D O F)|].
  intro W. exact (widened_only _ _ _ A B W eq_refl).
Qed.
Print Assumptions C83_field_refuted.

(** [add], [sub], [mul], [div], [rem], [and], [or] and [xor]. *)
Definition binary_codes : list byte := [x58; x59; x5a; x5b; x5d; x5f; x60; x61].

(** And they cannot be used with others: combining such a field with an [int] constant, as a compiler does for [box.s + 1], panics. *)
Theorem C83_use_refuted fuel p fr s bs f o t x c y op rest : ready p (x_vm s) ->
  code_here fr (x7b :: bs ++ c ++ [op]) -> List.length bs = 4%nat -> constant_code c (VInt I32 y) -> In op binary_codes ->
  denotes_field (x_vm s) (fr_assembly fr) (Z.to_N (number bs)) f -> x_operands s = VObject o :: rest ->
  field_value s o f (VInt t x) -> t <> I32 ->
  exists fr1 s1 fr2 s2, step fuel p fr s = Ok (ONext fr1) s1 /\ step fuel p fr1 s1 = Ok (ONext fr2) s2 /\ panics (step fuel p fr2 s2).
Proof.
  intros Rd C L K Io D O F A. pose proof C as Ca. change (x7b :: bs ++ c ++ [op]) with ((x7b :: bs) ++ c ++ [op]) in C.
  destruct (C41_load fuel p fr s bs f o _ rest Rd (code_here_prefix _ _ _ C) L D O F) as (fr1 & s1 & E1 & A1 & O1).
  exists fr1, s1. pose proof (code_here_drop _ _ _ C) as C1.
  assert (H1 : code_here fr1 (c ++ [op])).
  { destruct A1 as (_ & _ & Ec & _ & _ & Ei). destruct C1 as (a & b & Ea & Eb). exists a, b. rewrite Ec, Ei. split; [exact Ea|].
    rewrite <- Eb. cbn [set_ip fr_ip]. replace (len (x7b :: bs)) with 5 by (unfold len; cbn [List.length]; rewrite L; reflexivity). reflexivity. }
  destruct (C48_constants fuel p fr1 s1 c _ K (code_here_prefix _ _ _ H1)) as (fr2 & s2 & E2 & A2 & O2).
  exists fr2, s2. split; [exact E1|]. split; [exact E2|]. pose proof (code_here_drop _ _ _ H1) as C2.
  assert (H2 : code_here fr2 [op]).
  { destruct A2 as (_ & _ & Ec & _ & _ & Ei). destruct C2 as (a & b & Ea & Eb). exists a, b. rewrite Ec, Ei. split; [exact Ea|].
    rewrite <- Eb. reflexivity. }
  destruct O1 as (_ & _ & _ & _ & _ & O1), O2 as (_ & _ & _ & _ & _ & O2). rewrite O1 in O2.
  assert (Ne : ity_eqb t I32 = false) by (destruct t; congruence || reflexivity).
  unfold binary_codes in Io. cbn [In] in Io.
  repeat (destruct Io as [<-|Io]; [step_at H2; rewrite (op2_run _ _ _ _ _ _ O2);
    unfold v_add, v_sub, v_mul, v_div, v_rem, v_and, v_or, v_xor, binary; rewrite Ne; now eexists|]).
  destruct Io.
Qed.
Print Assumptions C83_use_refuted.

(** ** Fields that hold no numbers (C41) *)

Lemma held_as_none q s t n : c_primitives s = Some q -> started s -> is_named (c_types s) t n ->
  (forall v, type_name_of v <> Some n) -> held_as primitive_order q t s = Ok None s.
Proof.
  intros Q S N No. destruct (started_q _ S) as (q' & Q' & H). assert (q' = q) as -> by congruence. clear Q'.
  assert (G : forall l, (forall h pt, In (h, pt) l -> exists v m, type_name_of v = Some m /\ is_named (c_types s) (pt q) m) ->
    held_as l q t s = Ok None s).
  { induction l as [|[h pt] l IH]; intro A; [reflexivity|]. cbn [held_as]. destruct (A h pt (or_introl eq_refl)) as (v & m & Tv & Nm).
    unfold bind. rewrite (type_eq_is _ _ _ _ _ N Nm). destruct (bytes_eqb n m) eqn:E; [apply bytes_eqb_spec in E; subst m; destruct (No v Tv)|].
    apply IH. intros h' pt' I. apply (A h' pt'). now right. }
  apply G. intros h pt I. unfold primitive_order in I. cbn [In] in I.
  destruct I as [I|[I|[I|[I|[I|[I|[I|[I|[I|[I|[]]]]]]]]]]]; injection I as <- <-;
    [exists (VInt I8 0)|exists (VInt U8 0)|exists (VInt I16 0)|exists (VInt U16 0)|exists (VInt I32 0)|exists (VInt U32 0)
    |exists (VInt I64 0)|exists (VInt U64 0)|exists (VF32 0)|exists (VF64 0)]; eexists; (split; [reflexivity|]); apply H; cbn [In]; auto 20.
Qed.

(** A field whose type is none of the ten of [type_name_of] cannot be loaded: this holds for references of every type, and for [bool] and [char]. *)
Theorem C41_other_types_refuted fuel p fr s bs f o n rest : ready p (x_vm s) ->
  code_here fr (x7b :: bs) -> List.length bs = 4%nat ->
  denotes_field (x_vm s) (fr_assembly fr) (Z.to_N (number bs)) f -> x_operands s = VObject o :: rest ->
  stored s o 0 [x00] -> is_named (c_types (x_vm s)) (f_type f) n -> (forall v, type_name_of v <> Some n) ->
  panics (step fuel p fr s).
Proof.
  intros [_ S] C L D O H N No. destruct (step_ldfld fuel p fr s bs f o (VObject o) rest C L D O) as [-> _].
  unfold get_field_value, bind. rewrite (raw_object_ok (set_operands s rest) o H). destruct (started_q _ S) as (q & Q & _).
  rewrite (on_vm_stays the_primitives (set_operands s rest) q) by (unfold the_primitives; cbn [x_vm set_operands]; now rewrite Q).
  rewrite (on_vm_stays _ (set_operands s rest) _ (held_as_none _ _ _ _ Q S N No)). now eexists.
Qed.
Print Assumptions C41_other_types_refuted.

(** And a reference cannot be stored in any field. *)
Theorem C41_reference_refuted fuel p fr s bs f o r rest :
  code_here fr (x7d :: bs) -> List.length bs = 4%nat ->
  denotes_field (x_vm s) (fr_assembly fr) (Z.to_N (number bs)) f -> x_operands s = VObject r :: VObject o :: rest ->
  stored s o 0 [x00] -> panics (step fuel p fr s).
Proof.
  intros C L D O H. rewrite (step_stfld _ _ _ _ _ _ _ _ _ C L D O). unfold set_field, bind.
  rewrite (raw_object_ok (set_operands s rest) o H). now eexists.
Qed.
Print Assumptions C41_reference_refuted.

(** ** Variables *)

(** The variable [i] of the frame is a local of the type [n]. *)
Definition declared (s : vm) (fr : frame) (i : N) (n : name) : Prop :=
  exists b t, mt_impl (fr_method fr) = IIL b /\ nth_error (b_locals b) (N.to_nat i) = Some t /\ is_named (c_types s) t n.

Lemma store_load fuel p fr s st i ld w v l : store_code st false i -> load_code ld false i -> code_here fr (st ++ ld) ->
  variable s (fr_locals fr) i w -> x_operands s = v :: l ->
  exists fr1 s1, step fuel p fr s = Ok (ONext fr1) s1 /\ continues fr1 s1 (len ld) (v :: l) (step fuel p fr1 s1).
Proof.
  intros K1 K2 C V O.
  destruct (C48_store_variable fuel p fr s st false i w v l K1 (code_here_prefix _ _ _ C) V O) as (fr1 & s1 & E1 & A1 & O1 & _ & _ & _ & V1 & _).
  exists fr1, s1. split; [exact E1|]. pose proof (code_here_drop _ _ _ C) as C1. pose proof A1 as (_ & _ & Ec & Ev & _ & Ei).
  rewrite <- O1. apply (C48_load_variable fuel p fr1 s1 ld false i v K2).
  - destruct C1 as (a & b & Ea & Eb). exists a, b. rewrite Ec, Ei. split; [exact Ea|]. rewrite <- Eb. reflexivity.
  - cbn [group] in *. now rewrite Ev.
Qed.

(** C83 for variables: a number that is stored and is one of the type of the variable is loaded again. *)
Theorem C83_variable_partial fuel p fr s st i ld w x l n : store_code st false i -> load_code ld false i -> code_here fr (st ++ ld) ->
  variable s (fr_locals fr) i w -> x_operands s = VInt I32 x :: l ->
  declared (x_vm s) fr i n -> number_of n x ->
  exists fr1 s1 y, step fuel p fr s = Ok (ONext fr1) s1 /\ narrowed n x y /\
    continues fr1 s1 (len ld) (VInt I32 y :: l) (step fuel p fr1 s1).
Proof.
  intros K1 K2 C V O _ (sn & bits & least & I & En & R).
  destruct (store_load fuel p fr s st i ld w _ l K1 K2 C V O) as (fr1 & s1 & E1 & E2).
  exists fr1, s1, x. split; [exact E1|]. split; [|exact E2]. exists sn, bits, least. rewrite Z.sub_diag. auto.
Qed.
Print Assumptions C83_variable_partial.

(** It is false of all other numbers: what is loaded is what was stored, and not what a variable of that type holds. *)
Theorem C83_variable_refuted fuel p fr s st i ld w x l n z : store_code st false i -> load_code ld false i -> code_here fr (st ++ ld) ->
  variable s (fr_locals fr) i w -> x_operands s = VInt I32 x :: l ->
  declared (x_vm s) fr i n -> narrowed n x z -> ~ number_of n x ->
  exists fr1 s1 y, step fuel p fr s = Ok (ONext fr1) s1 /\
    continues fr1 s1 (len ld) (VInt I32 y :: l) (step fuel p fr1 s1) /\ y <> z.
Proof.
  intros K1 K2 C V O _ (a & b & c & I & E & R & _) No.
  destruct (store_load fuel p fr s st i ld w _ l K1 K2 C V O) as (fr1 & s1 & E1 & E2).
  exists fr1, s1, x. split; [exact E1|]. split; [exact E2|]. intros ->. apply No. exists a, b, c. auto.
Qed.
Print Assumptions C83_variable_refuted.

(** ** Examples *)

(** The field [x] of the object is an [int]; [s] is a [short]: it is loaded as 16-bit number, and adding 1 to it panics. *)
Example C83_field_example p : exists w, widened (VInt I32 0) w /\
  continues (frame_with [x7b; x01; x00; x00; x04]) (set_operands (m1 p) [VObject (box p)]) 5 [w]
    (step 10 p (frame_with [x7b; x01; x00; x00; x04]) (set_operands (m1 p) [VObject (box p)])).
Proof.
  refine (C83_field_partial 10 p _ (set_operands (m1 p) [VObject (box p)]) [x01; x00; x00; x04] (lab_field 0) (box p) (VInt I32 0) []
    (m1_ready p) (here_it_is _) eq_refl _ eq_refl (field_x p) (or_introl eq_refl)).
  cbn [x_vm set_operands]. rewrite lab_vm. exact (lab_token 0 ltac:(lia)).
Qed.
Example C83_field_refuted_example p : exists v,
  continues (frame_with [x7b; x03; x00; x00; x04]) (set_operands (m1 p) [VObject (box p)]) 5 [v]
    (step 10 p (frame_with [x7b; x03; x00; x00; x04]) (set_operands (m1 p) [VObject (box p)])) /\ ~ widened (VInt I16 0) v.
Proof.
  refine (C83_field_refuted 10 p _ (set_operands (m1 p) [VObject (box p)]) [x03; x00; x00; x04] (lab_field 2) (box p) I16 0 []
    (m1_ready p) (here_it_is _) eq_refl _ eq_refl (field_s p) _ _); try discriminate.
  cbn [x_vm set_operands]. rewrite lab_vm. exact (lab_token 2 ltac:(lia)).
Qed.
Definition plus_one : list byte := [x7b; x03; x00; x00; x04; x17; x58].
Example C83_use_example p : exists fr1 s1 fr2 s2,
  step 10 p (frame_with plus_one) (set_operands (m1 p) [VObject (box p)]) = Ok (ONext fr1) s1 /\
  step 10 p fr1 s1 = Ok (ONext fr2) s2 /\ panics (step 10 p fr2 s2).
Proof.
  refine (C83_use_refuted 10 p _ (set_operands (m1 p) [VObject (box p)]) [x03; x00; x00; x04] (lab_field 2) (box p) I16 0 [x17] 1 x58 []
    (m1_ready p) (here_it_is plus_one) eq_refl is_ldc_1 (or_introl eq_refl) _ eq_refl (field_s p) _); [|discriminate].
  cbn [x_vm set_operands]. rewrite lab_vm. exact (lab_token 2 ltac:(lia)).
Qed.

(** A method with one local variable, of type [byte]. *)
Definition byte_method : method_info :=
  mkMethod [] 0%nat 0%nat [] (IIL (mkBody [x0a; x06; x2a] 8 [7%nat] true [])) true false false.
Definition byte_frame : frame := mkFrame byte_method 2%nat [x0a; x06; x2a] 0 (CFrames 0 0 1) CHost.
Definition byte_state (x : Z) : machine :=
  mkMachine demo_lab (mkHeap 0 1024 []) (mkFrames 0 64 [VInt I8 0]) 1 [VInt I32 x] [].
Lemma byte_declared x : declared (x_vm (byte_state x)) byte_frame 0 (bytes_of_string "System.Byte").
Proof. eexists. exists 7%nat. split; [reflexivity|]. split; [reflexivity|]. eexists. split; vm_compute; reflexivity. Qed.
Lemma byte_range x : number_of (bytes_of_string "System.Byte") x <-> (0 <= x < 256)%Z.
Proof.
  split.
  - intros (a & b & c & I & E & R). cbn [In short_types] in I.
    repeat (destruct I as [I|I]; [injection I as <- <- <-; first [exact R|vm_compute in E; discriminate]|]). destruct I.
  - intro R. exists "System.Byte"%string, 8%Z, 0%Z. split; [right; left; reflexivity|]. split; [reflexivity|]. exact R.
Qed.
(** 44 is loaded as 44, and 300 as 300, not as 44. *)
Example C83_variable_example p : exists fr1 s1 y, step 10 p byte_frame (byte_state 44) = Ok (ONext fr1) s1 /\
  narrowed (bytes_of_string "System.Byte") 44 y /\ continues fr1 s1 1 [VInt I32 y] (step 10 p fr1 s1).
Proof.
  refine (C83_variable_partial 10 p byte_frame (byte_state 44) [x0a] 0 [x06] (VInt I8 0) 44 [] _ is_stloc_0 is_ldloc_0 _ _ eq_refl (byte_declared 44) _).
  - exists [], [x2a]. split; reflexivity.
  - cbn. repeat split; lia.
  - apply byte_range. lia.
Qed.
Example C83_variable_refuted_example p : exists fr1 s1 y, step 10 p byte_frame (byte_state 300) = Ok (ONext fr1) s1 /\
  continues fr1 s1 1 [VInt I32 y] (step 10 p fr1 s1) /\ y <> 44%Z.
Proof.
  refine (C83_variable_refuted 10 p byte_frame (byte_state 300) [x0a] 0 [x06] (VInt I8 0) 300 [] _ 44 is_stloc_0 is_ldloc_0 _ _ eq_refl (byte_declared 300) _ _).
  - exists [], [x2a]. split; reflexivity.
  - cbn. repeat split; lia.
  - exists "System.Byte"%string, 8%Z, 0%Z. split; [right; left; reflexivity|]. split; [reflexivity|]. split; [lia|reflexivity].
  - rewrite byte_range. lia.
Qed.

(** The fields [inner] and [open] of the [Shapes.Box] of [Left] have the types [object] and [bool]. *)
Definition left_box : obj := mkObj 0%nat 0.
Definition left_state (l : list value) : machine :=
  mkMachine demo_left (mkHeap 0 1024 ([x00; x16; x00; x00; x00] ++ repeat x00 13)) (mkFrames 0 64 []) 0 l [].
Definition left_frame (code : list byte) : frame := mkFrame example_method 2%nat code 0 CHost CHost.
Definition left_field (i : nat) : field_info :=
  match nth_error (c_arena demo_left) 2 with Some (Some ai) => nth i (a_fields ai) (mkField [] 0%nat 0%nat false 0) | _ => mkField [] 0%nat 0%nat false 0 end.
Example C41_other_types_example p : history p no_files [] demo_left /\ stored (left_state []) left_box 0 [x00] /\
  denotes_field demo_left 2%nat 0x04000002 (left_field 1) /\ denotes_field demo_left 2%nat 0x04000003 (left_field 2) /\
  is_named (c_types demo_left) (f_type (left_field 1)) (bytes_of_string "System.Object") /\
  is_named (c_types demo_left) (f_type (left_field 2)) (bytes_of_string "System.Boolean") /\
  (forall v, type_name_of v <> Some (bytes_of_string "System.Object") /\ type_name_of v <> Some (bytes_of_string "System.Boolean")) /\
  panics (step 10 p (left_frame [x7b; x02; x00; x00; x04]) (left_state [VObject left_box])) /\
  panics (step 10 p (left_frame [x7b; x03; x00; x00; x04]) (left_state [VObject left_box])) /\
  panics (step 10 p (left_frame [x7d; x02; x00; x00; x04]) (left_state [VObject left_box; VObject left_box])).
Proof.
  split. { destruct (demo_vm_history p) as (f & rt & con & s0 & N & L). exists f, rt, con, s0. split; [exact N|].
    eapply later_then; [exact L|]. eapply ev_load. apply demo_left_loaded. }
  split; [split; [reflexivity|exists [], ([x16; x00; x00; x00] ++ repeat x00 13); split; reflexivity]|].
  split; [eexists; exists 1; split; [vm_compute; reflexivity|split; [reflexivity|split; [reflexivity|vm_compute; reflexivity]]]|].
  split; [eexists; exists 2; split; [vm_compute; reflexivity|split; [reflexivity|split; [reflexivity|vm_compute; reflexivity]]]|].
  split; [eexists; split; vm_compute; reflexivity|]. split; [eexists; split; vm_compute; reflexivity|].
  split; [intros [[]| | |]; split; discriminate|].
  split; [|split]; eexists; destruct p; vm_compute; reflexivity.
Qed.

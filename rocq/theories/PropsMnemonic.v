(** Which instructions the interpreter recognises and how it names those that it does not support:
    C90. *)
From Coq Require Import NArith ZArith String List Bool Lia.
From Coq.Strings Require Import Byte.
From Verif Require Import Base BaseFacts Metadata Runtime Value Opcodes Gc Interp SpecExec SpecMnemonics
  InterpFacts FieldFacts DemoStates PropsValue PropsDecode.
Import ListNotations.
Open Scope N_scope.

(** An instruction of CIL, other than the prefix [no.] that the interpreter does not know. *)
Definition known (code : list byte) (name : string) : Prop :=
  In (code, name) instructions /\ name <> "no."%string.

(** ** The table of opcodes against the table of CIL *)

Definition word (code : list byte) : N :=
  match code with
  | [b] => bn b
  | [b; c] => N.lor (bn c) (N.shiftl (bn b) 8)
  | _ => 0
  end.
Definition agrees (e : list byte * string) : bool :=
  match from_u16 (word (fst e)) with
  | Some op =>
      bytes_eqb (opcode_bytes op) (fst e) && String.eqb (opcode_name op) (spelled (snd e)) &&
      negb ((0xf8 <? opcode_code op) && (opcode_code op <? 256))
  | None => String.eqb (snd e) "no."
  end.
Lemma all_agree : forallb agrees instructions = true.
Proof. vm_compute. reflexivity. Qed.

Lemma known_opcode code name : known code name ->
  exists op, opcode_bytes op = code /\ opcode_name op = spelled name /\ ~ prefix_only op.
Proof.
  intros [I N]. pose proof (proj1 (forallb_forall _ _) all_agree _ I) as A. unfold agrees in A. cbn [fst snd] in A.
  destruct (from_u16 (word code)) as [op|]; [|apply String.eqb_eq in A; congruence].
  apply andb_prop in A. destruct A as [A B]. apply andb_prop in A. destruct A as [A C].
  exists op. split; [now apply bytes_eqb_spec|]. split; [now apply String.eqb_eq|].
  intros [P Q]. apply N.ltb_lt in P, Q. now rewrite P, Q in B.
Qed.

Definition listed (code : list byte) : bool :=
  existsb (fun e => bytes_eqb (fst e) code && negb (String.eqb (snd e) "no.")) instructions.
Lemma listed_known code : listed code = true -> exists name, known code name.
Proof.
  intro L. apply existsb_exists in L. destruct L as [[k name] [I B]]. cbn [fst snd] in B.
  apply andb_prop in B. destruct B as [B C]. apply bytes_eqb_spec in B. subst k.
  exists name. split; [exact I|]. intros ->. discriminate C.
Qed.

Definition found (o : option opcode) (code : list byte) : bool :=
  match o with Some _ => listed code | None => true end.
Lemma found_one b : (0xf8 <? bn b) = false -> b <> xf8 -> found (from_u16 (bn b)) [b] = true.
Proof. intros H K. destruct b; try discriminate H; try (now contradiction K); vm_compute; reflexivity. Qed.
Lemma found_two b c : (0xf8 <? bn b) = true -> found (from_u16 (N.lor (bn c) (N.shiftl (bn b) 8))) [b; c] = true.
Proof. intros H. destruct b; try discriminate H; destruct c; vm_compute; reflexivity. Qed.

(** ** C90 *)

(** An instruction of CIL that the interpreter does not support is reported under its mnemonic,
    whatever it is given and wherever it stands. *)
Theorem C90_named_partial : forall fuel p fr s code name,
  known code name -> ~ implemented code -> code_here fr code ->
  step fuel p fr s = Err ("Use of unimplemented instruction " ++ spelled name) s /\
  run (S fuel) p fr s = Err ("Use of unimplemented instruction " ++ spelled name) s.
Proof.
  intros fuel p fr s code name K NI C. destruct (known_opcode code name K) as (op & <- & <- & P). split.
  - now apply C59_unsupported_instruction.
  - now apply C59_unsupported_run.
Qed.

(** What it supports are instructions of CIL. *)
Theorem C90_supported : forall code, implemented code -> exists name, known code name.
Proof.
  intros code [n I]. apply listed_known.
  assert (F : forallb (fun e => listed (fst e)) (formats ++ branch_formats ++ [([x2a], 0)]) = true)
    by (vm_compute; reflexivity).
  exact (proj1 (forallb_forall _ _) F _ I).
Qed.

(** The bytes at one place are those of one instruction at most. *)
Definition apart (e f : list byte * string) : bool :=
  match fst e, fst f with
  | [b], [c] | [b], [c; _] | [b; _], [c] => negb (Byte.eqb b c)
  | [b; d], [c; g] => negb (Byte.eqb b c && Byte.eqb d g)
  | _, _ => false
  end.
Fixpoint all_apart (l : list (list byte * string)) : bool :=
  match l with [] => true | e :: l' => forallb (apart e) l' && all_apart l' end.
Lemma apart_sym e f : apart e f = true -> apart f e = true.
Proof.
  destruct e as [a x], f as [b y]. unfold apart. cbn [fst]. intro H.
  assert (S : forall u v, Byte.eqb u v = Byte.eqb v u).
  { intros u v. destruct (Byte.eqb v u) eqn:E.
    - apply Byte.byte_dec_bl in E. subst. apply Byte.byte_dec_lb. reflexivity.
    - apply not_true_is_false. intro F. apply Byte.byte_dec_bl in F. subst. rewrite Byte.byte_dec_lb in E; [discriminate|reflexivity]. }
  destruct a as [|a1 [|a2 [|]]], b as [|b1 [|b2 [|]]]; try discriminate H; now rewrite ?(S b1), ?(S b2).
Qed.
Lemma all_apart_in l e f : all_apart l = true -> In e l -> In f l -> e = f \/ apart e f = true.
Proof.
  induction l as [|x l IH]; [easy|]. cbn [all_apart In]. intros A. apply andb_prop in A. destruct A as [A B].
  pose proof (proj1 (forallb_forall _ _) A) as A'.
  intros [->|I] [->|J]; auto. right. apply apart_sym. auto.
Qed.
Lemma instructions_apart : all_apart instructions = true.
Proof. vm_compute. reflexivity. Qed.

Theorem C90_one_instruction : forall fr code code' name name',
  In (code, name) instructions -> In (code', name') instructions -> code_here fr code -> code_here fr code' ->
  code = code' /\ name = name'.
Proof.
  intros fr code code' name name' I J (be & af & E & L) (be' & af' & E' & L').
  assert (B : be = be' /\ code ++ af = code' ++ af').
  { apply split_same; [congruence|]. unfold len in *. lia. }
  destruct B as [_ B].
  destruct (all_apart_in _ _ _ instructions_apart I J) as [Q|Q]; [now injection Q|].
  exfalso. unfold apart in Q. cbn [fst] in Q.
  assert (R : forall b, Byte.eqb b b = true) by (intro b; now apply Byte.byte_dec_lb).
  destruct code as [|a1 [|a2 [|]]], code' as [|b1 [|b2 [|]]]; try discriminate Q; cbn [app] in B; injection B; intros; subst;
    rewrite ?R in Q; discriminate Q.
Qed.

(** Bytes that are no instruction end the process instead of being reported; the byte 0xf8 is the
    one exception. *)
Theorem C90_unknown_refuted : forall fuel p fr s,
  (forall code name, known code name -> ~ code_here fr code) -> ~ code_here fr [xf8] ->
  exists why, step fuel p fr s = Panic why.
Proof.
  intros fuel p fr s N F8.
  assert (G : exists why, get_opcode fr s = Panic why).
  { unfold get_opcode, bind, code_at.
    destruct (nth_error (fr_code fr) (N.to_nat (fr_ip fr))) as [b|] eqn:E; [|now eexists].
    apply nth_error_split in E. destruct E as (be & af & E & L).
    assert (LB : fr_ip fr = len be) by (unfold len; lia).
    unfold ret at 1. change (opcode_code Prefix7) with 0xf8.
    destruct (0xf8 <? bn b) eqn:H.
    - rewrite E, LB. replace (N.to_nat (len be + 1)) with (length be + 1)%nat by (unfold len; lia).
      rewrite nth_error_app2 by lia. replace (length be + 1 - length be)%nat with 1%nat by lia. cbn [nth_error].
      destruct af as [|c af]; [now eexists|]. cbn [ret]. pose proof (found_two b c H) as T.
      unfold ret at 1. destruct (from_u16 _) as [op|]; [|now eexists]. exfalso.
      destruct (listed_known _ T) as [name K]. apply (N _ _ K). exists be, af. split; assumption.
    - assert (B8 : b <> xf8) by (intros ->; apply F8; exists be, af; split; assumption).
      pose proof (found_one b H B8) as T. destruct (from_u16 (bn b)) as [op|]; [|now eexists]. exfalso.
      destruct (listed_known _ T) as [name K]. apply (N _ _ K). exists be, af. split; assumption. }
  destruct G as [why G]. exists why. unfold step, bind. now rewrite G.
Qed.

(** ... as does the one instruction of CIL that it does not know. *)
Theorem C90_no_refuted : forall fuel p fr s, code_here fr [xfe; x19] -> exists why, step fuel p fr s = Panic why.
Proof.
  intros fuel p fr s C. apply C90_unknown_refuted.
  - intros code name [I N] D.
    assert (J : In ([xfe; x19], "no."%string) instructions).
    { assert (F : existsb (fun e => bytes_eqb (fst e) [xfe; x19] && String.eqb (snd e) "no.") instructions = true)
        by (vm_compute; reflexivity).
      apply existsb_exists in F. destruct F as [[k m] [F1 F2]]. cbn [fst snd] in F2. apply andb_prop in F2.
      destruct F2 as [F2 F3]. apply bytes_eqb_spec in F2. apply String.eqb_eq in F3. now subst. }
    now destruct (C90_one_instruction fr _ _ _ _ I J D C).
  - intros (be & af & E & L). destruct C as (be' & af' & E' & L').
    assert (B : be = be' /\ [xf8] ++ af = [xfe; x19] ++ af').
    { apply split_same; [congruence|]. unfold len in *. lia. }
    destruct B as [_ B]. discriminate B.
Qed.

(** The byte 0xf8 alone is taken for an instruction, which CIL does not have. *)
Theorem C90_prefix7_partial : forall fuel p fr s, code_here fr [xf8] ->
  step fuel p fr s = Err "Use of unimplemented instruction Prefix7" s /\
  forall name, ~ In ([xf8], name) instructions.
Proof.
  intros fuel p fr s C. split.
  - refine (C59_unsupported_instruction fuel p fr s Prefix7 _ _ C).
    + intros [H _]. vm_compute in H. discriminate.
    + intros [n H]. vm_compute in H. repeat (destruct H as [H|H]; [discriminate|]). exact H.
  - intros name I.
    assert (F : forallb (fun e => negb (bytes_eqb (fst e) [xf8])) instructions = true) by (vm_compute; reflexivity).
    pose proof (proj1 (forallb_forall _ _) F _ I) as F'. vm_compute in F'. discriminate.
Qed.

(** ** Examples *)

(** [conv.ovf.u4] is reported as such; 0x24 and [no.] are not reported at all. *)
Example C90_ex :
  (step 0 Debug (example_frame [xb8; x2a]) (example_machine []) =
     Err "Use of unimplemented instruction Conv_Ovf_U4" (example_machine []) /\
   run 1 Debug (example_frame [xb8; x2a]) (example_machine []) =
     Err "Use of unimplemented instruction Conv_Ovf_U4" (example_machine [])) /\
  (exists why, step 0 Debug (example_frame [xfe; x19; x01; x2a]) (example_machine []) = Panic why).
Proof.
  split.
  - refine (C90_named_partial 0 Debug (example_frame [xb8; x2a]) (example_machine []) [xb8] "conv.ovf.u4" _ _ _).
    + split; [|discriminate]. unfold instructions. repeat (try (left; reflexivity); right).
    + intros [n H]. vm_compute in H. repeat (destruct H as [H|H]; [discriminate|]). exact H.
    + exists [], [x2a]. split; reflexivity.
  - apply C90_no_refuted. exists [], [x01; x2a]. split; reflexivity.
Qed.
Example C90_unknown_ex : exists why, step 0 Debug (example_frame [x24; x2a]) (example_machine []) = Panic why.
Proof.
  apply C90_unknown_refuted.
  - intros code name [I _] (be & af & E & L). destruct be; [|discriminate L].
    assert (F : forallb (fun e => match fst e with b :: _ => negb (Byte.eqb b x24) | [] => false end) instructions = true)
      by (vm_compute; reflexivity).
    pose proof (proj1 (forallb_forall _ _) F _ I) as F'. cbn [fst] in F'.
    destruct code as [|b code]; [discriminate|]. cbn in E. injection E as <- _. discriminate F'.
  - intros (be & af & E & L). destruct be; [discriminate E|discriminate L].
Qed.

Print Assumptions C90_named_partial.
Print Assumptions C90_supported.
Print Assumptions C90_one_instruction.
Print Assumptions C90_unknown_refuted.
Print Assumptions C90_no_refuted.
Print Assumptions C90_prefix7_partial.

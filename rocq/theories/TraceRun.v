(** Traces computed, for the examples. *)
From Coq Require Import NArith ZArith Arith Lia String List Bool.
From Coq.Strings Require Import Byte.
From Verif Require Import Base BaseFacts Metadata Utf SpecUtf UtfProofs Runtime Value Opcodes Gc Interp
  SpecExec SpecFrames InterpFacts InterpInv FrameFacts TraceFacts.
Import ListNotations.
Open Scope N_scope.

Definition leave_now (s s2 : machine) : machine :=
  mkMachine (x_vm s2) (x_heap s2)
    (mkFrames (k_gen (x_frames s2)) (k_cap (x_frames s2)) (firstn (N.to_nat (in_use s)) (k_cells (x_frames s2))))
    (x_alloc s) (x_operands s2) (x_host s2).

Definition trace_call (go : frame -> machine -> option (list moment * ending)) (m : method_info) (args : cells) (s : machine)
    : option (list moment * ending) :=
  match mt_impl m with
  | IIL b =>
      match nth_error (c_types (x_vm s)) (mt_declaring m) with
      | Some ti =>
          match nth_error (c_arena (x_vm s)) (ti_assembly ti) with
          | Some (Some _) =>
              match stackalloc (len (b_locals b)) (set_alloc s 0) with
              | Ok l s1 =>
                  match go (mkFrame m (ti_assembly ti) (b_code b) 0 l args) s1 with
                  | Some (t, Done v s2) => Some (t, Done v (leave_now s s2))
                  | Some (t, Failed e s2) => Some (t, Failed e (leave_now s s2))
                  | None => None
                  end
              | _ => None
              end
          | _ => None
          end
      | None => None
      end
  | IInternal ConsoleWrite =>
      match cell_get args 0 s with
      | Ok (VObject o) _ =>
          match string_data o s with
          | Ok units _ =>
              match utf16_decode units, console_write args s with
              | Some text, Ok r s' => Some ([Write text], Done r s')
              | _, _ => None
              end
          | _ => None
          end
      | _ => None
      end
  | _ => None
  end.
Fixpoint trace_run (f : nat) (p : profile) (fr : frame) (s : machine) : option (list moment * ending) :=
  match f with
  | O => None
  | S f =>
      match step f p fr s with
      | Err e s' => Some ([At fr s], Failed e s')
      | Ok (OReturn v) s' => Some ([At fr s], Done v s')
      | Ok (ONext fr') s' =>
          match trace_run f p fr' s' with Some (t, e) => Some (At fr s :: t, e) | None => None end
      | Ok (OCall m args r fr') s1 =>
          match trace_call (trace_run f p) m args s1 with
          | Some (t1, Done v s2) =>
              match trace_run f p fr' (with_operands s2 (then_push (then_push (x_operands s2) v) r)) with
              | Some (t2, e) => Some (At fr s :: t1 ++ t2, e)
              | None => None
              end
          | Some (t1, Failed e s2) => Some (At fr s :: t1, Failed e s2)
          | None => None
          end
      | _ => None
      end
  end.

Lemma trace_call_ok p go : (forall fr s t e, go fr s = Some (t, e) -> runs p fr s t e) ->
  forall m args s t e, trace_call go m args s = Some (t, e) -> calls p m args s t e.
Proof.
  intros Go m args s t e. unfold trace_call. destruct (mt_impl m) as [|b|[]] eqn:Im; try discriminate.
  - destruct (nth_error (c_types (x_vm s)) (mt_declaring m)) as [ti|] eqn:Et; [|discriminate].
    destruct (nth_error (c_arena (x_vm s)) (ti_assembly ti)) as [[ai|]|] eqn:Ea; try discriminate.
    destruct (enters_run m b args s ti ai Et Ea) as (l & s1 & El & En). rewrite El.
    destruct (go _ s1) as [[t' [v s2|w s2]]|] eqn:Eg; [| |discriminate]; intro H; injection H as <- <-.
    + eapply calls_il; eauto. reflexivity.
    + eapply calls_il_fails; eauto. reflexivity.
  - destruct (cell_get args 0 s) as [[| | |o] s0| | | |] eqn:Eg; try discriminate.
    destruct (string_data o s) as [units s2| | | |] eqn:Ed; try discriminate.
    destruct (utf16_decode units) as [text|] eqn:Eu; [|discriminate].
    destruct (console_write args s) as [r s'| | | |] eqn:Ew; try discriminate.
    intro H. injection H as <- <-.
    pose proof (cell_get_pure args 0 s) as P. rewrite Eg in P. subst s0.
    pose proof (pure_string_data o s) as P. rewrite Ed in P. subst s2.
    pose proof (console_write_run args s) as W. rewrite Ew in W.
    destruct W as (_ & o' & units' & text' & Hv & Hs & Hd & Hu & _).
    assert (o' = o) by congruence. subst o'. assert (units' = units) by congruence. subst units'.
    pose proof Eu as Eu'. apply utf16_decode_spec in Eu'; [|eapply string_data_bound; eauto]. destruct Eu' as [Sc ->].
    eapply calls_console with (o := o); eauto; [now apply variable_cell_get|]. split; [exact Sc|]. auto.
Qed.
Lemma trace_run_ok p : forall f fr s t e, trace_run f p fr s = Some (t, e) -> runs p fr s t e.
Proof.
  induction f as [|f IH]; intros fr s t e; cbn [trace_run]; [discriminate|].
  destruct (step f p fr s) as [[fr'|v|m args r fr'] s'|w s'|w|w|] eqn:E; try discriminate.
  - destruct (trace_run f p fr' s') as [[t' e']|] eqn:Er; [|discriminate]. intro H. injection H as <- <-.
    eapply runs_next; eauto.
  - intro H. injection H as <- <-. eapply runs_returns; eauto.
  - destruct (trace_call (trace_run f p) m args s') as [[t1 [v s2|w s2]]|] eqn:Ec; [| |discriminate].
    + destruct (trace_run f p fr' _) as [[t2 e']|] eqn:Er; [|discriminate]. intro H. injection H as <- <-.
      eapply runs_call; eauto. eapply trace_call_ok; eauto.
    + intro H. injection H as <- <-. eapply runs_call_fails; eauto. eapply trace_call_ok; eauto.
  - intro H. injection H as <- <-. eapply runs_fails; eauto.
Qed.

Definition trace_of (fuel : nat) (p : profile) (m : method_info) (params : list value) (s : vm) : option (list moment * ending) :=
  trace_call (trace_run fuel p) m CHost (new_machine s params).
Lemma trace_of_ok fuel p m params s t e : trace_of fuel p m params s = Some (t, e) -> executes p m params s t e.
Proof. apply trace_call_ok. intros. eapply trace_run_ok; eauto. Qed.

(** A property of a computed execution. *)
Lemma trace_check fuel p m params s (P : list moment -> ending -> bool) :
  match trace_of fuel p m params s with Some (t, e) => P t e | None => false end = true ->
  exists t e, executes p m params s t e /\ P t e = true.
Proof.
  destruct (trace_of fuel p m params s) as [[t e]|] eqn:E; [|discriminate].
  intro H. exists t, e. split; [now apply trace_of_ok in E|exact H].
Qed.

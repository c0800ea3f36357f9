(** Executions of any length, as relations, for the statement of properties about frames, calls
    and console output.  The model's [step] is taken as the meaning of one instruction. *)
From Coq Require Import NArith ZArith String List Bool.
From Coq.Strings Require Import Byte.
From Verif Require Import Base Runtime Value Gc Interp SpecUtf SpecExec.
Import ListNotations.
Open Scope N_scope.

(** Cell [i] of the frame storage belongs to a group of variables. *)
Definition in_group (c : cells) (i : nat) : Prop :=
  match c with
  | CHost => False
  | CFrames _ base n => (N.to_nat base <= i < N.to_nat (base + n))%nat
  end.

(** The cells in use. *)
Definition in_use (s : machine) : N := len (k_cells (x_frames s)).
(** The cells there is room for before the storage has to move. *)
Definition room (s : machine) : N := k_cap (x_frames s).

(** All [n] variables of a group can be read. *)
Definition accessible (s : machine) (c : cells) : Prop :=
  match c with
  | CHost => True
  | CFrames _ _ n => forall i, i < n -> exists v, variable s c i v
  end.

(** What can be observed of an execution: the state in which each instruction starts, with the
    frame it belongs to, and the texts written to the console. *)
Inductive moment := At (fr : frame) (s : machine) | Write (text : list N).

(** The state with the operand stack [l]. *)
Definition with_operands (s : machine) (l : list value) : machine :=
  mkMachine (x_vm s) (x_heap s) (x_frames s) (x_alloc s) l (x_host s).
Definition then_push (l : list value) (o : option value) : list value :=
  match o with Some v => v :: l | None => l end.

(** From [s] to [s'], frame [fr] is entered: a new group of cells for the local variables. *)
Definition enters (m : method_info) (b : body) (args : cells) (s : machine) (fr : frame) (s' : machine) : Prop :=
  exists ti ai gen cap,
    let n := len (b_locals b) in
    nth_error (c_types (x_vm s)) (mt_declaring m) = Some ti /\
    nth_error (c_arena (x_vm s)) (ti_assembly ti) = Some (Some ai) /\
    (if in_use s + n <=? room s
     then gen = k_gen (x_frames s) /\ cap = room s
     else gen = S (k_gen (x_frames s)) /\ cap = N.max (2 * room s) (in_use s + n)) /\
    fr = mkFrame m (ti_assembly ti) (b_code b) 0 (CFrames gen (in_use s) n) args /\
    s' = mkMachine (x_vm s) (x_heap s)
           (mkFrames gen cap (k_cells (x_frames s) ++ repeat (VInt I8 0%Z) (N.to_nat n)))
           n (x_operands s) (x_host s).

(** From [s'] to [s''], a frame that was entered in [s] is left: only the cells that were in use
    then remain. *)
Definition leaves (s s' s'' : machine) : Prop :=
  s'' = mkMachine (x_vm s') (x_heap s')
          (mkFrames (k_gen (x_frames s')) (k_cap (x_frames s'))
             (firstn (N.to_nat (in_use s)) (k_cells (x_frames s'))))
          (x_alloc s) (x_operands s') (x_host s').

(** The object holds [text]. *)
Definition holds_text (s : machine) (o : obj) (text : list N) : Prop :=
  Forall scalar text /\ as_string o s = Ok true s /\ string_data o s = Ok (utf16_encode text) s.

(** The end of an execution: a result or an error. *)
Inductive ending := Done (v : option value) (s : machine) | Failed (e : string) (s : machine).

Section Trace.
  Variable p : profile.

  (** [runs fr s t e]: started in state [s], frame [fr] comes to the end [e] with the moments [t].
      [calls m args s t e]: the same for a call of [m]. *)
  Inductive runs : frame -> machine -> list moment -> ending -> Prop :=
  | runs_fails f fr s e s' : step f p fr s = Err e s' -> runs fr s [At fr s] (Failed e s')
  | runs_returns f fr s v s' : step f p fr s = Ok (OReturn v) s' -> runs fr s [At fr s] (Done v s')
  | runs_next f fr s fr' s' t e : step f p fr s = Ok (ONext fr') s' -> runs fr' s' t e ->
      runs fr s (At fr s :: t) e
  | runs_call f fr s m args result fr' s1 t1 v s2 t2 e :
      step f p fr s = Ok (OCall m args result fr') s1 ->
      calls m args s1 t1 (Done v s2) ->
      runs fr' (with_operands s2 (then_push (then_push (x_operands s2) v) result)) t2 e ->
      runs fr s (At fr s :: t1 ++ t2) e
  | runs_call_fails f fr s m args result fr' s1 t1 e s2 :
      step f p fr s = Ok (OCall m args result fr') s1 ->
      calls m args s1 t1 (Failed e s2) ->
      runs fr s (At fr s :: t1) (Failed e s2)
  with calls : method_info -> cells -> machine -> list moment -> ending -> Prop :=
  | calls_il m b args s fr s1 t v s2 s3 : mt_impl m = IIL b -> enters m b args s fr s1 ->
      runs fr s1 t (Done v s2) -> leaves s s2 s3 -> calls m args s t (Done v s3)
  | calls_il_fails m b args s fr s1 t e s2 s3 : mt_impl m = IIL b -> enters m b args s fr s1 ->
      runs fr s1 t (Failed e s2) -> leaves s s2 s3 -> calls m args s t (Failed e s3)
  | calls_console m args s o text r s' : mt_impl m = IInternal ConsoleWrite ->
      variable s args 0 (VObject o) -> holds_text s o text ->
      console_write args s = Ok r s' -> calls m args s [Write text] (Done r s').

  (** An execution that the host starts. *)
  Definition executes (m : method_info) (params : list value) (s : vm) : list moment -> ending -> Prop :=
    calls m CHost (new_machine s params).
End Trace.

Scheme runs_calls_ind := Induction for runs Sort Prop
  with calls_runs_ind := Induction for calls Sort Prop.
Combined Scheme traces_ind from runs_calls_ind, calls_runs_ind.

(** The texts written, in order. *)
Fixpoint written (t : list moment) : list N :=
  match t with
  | [] => []
  | At _ _ :: t' => written t'
  | Write text :: t' => text ++ written t'
  end.

(** The state at the end. *)
Definition final (e : ending) : machine := match e with Done _ s | Failed _ s => s end.

(** Model of the interpreter: /repo/clr_lite/src/vm/interpreter/mod.rs, stack_frame.rs,
    internal_method/*.rs and mod.rs:130-166.  Line numbers without a file name are those of
    stack_frame.rs; other file names are relative to /repo/clr_lite/src/vm.

    Local variables and arguments live in one [Vec<u8>] ([stackalloc]) and are reached through
    slices made with [from_raw_parts_mut].  The model stores whole cells of [size_of::<Value>()]
    = 16 bytes and, as for the heap, counts the buffers of the vector: an access through a slice
    of an earlier buffer is undefined behaviour.  A cell of zeros is the value [I8(0)] (the first
    variant).  Simplifications: the layout of [Value] is the one of the current compiler (16
    bytes, tag 0 for the first variant) and its alignment is not modelled; the vector's size in
    bytes is assumed to stay below [isize::MAX] (every cell is occupied); the native stack is
    unbounded; messages of errors are reduced to their fixed part. *)
From Coq Require Import NArith ZArith String List Bool.
From Coq.Strings Require Import Byte.
From Verif Require Import Base Metadata Utf Runtime Value Opcodes Gc.
Import ListNotations.
Open Scope N_scope.

(** ** The operand stack (491-531) *)

(** 491-493, [push]. *)
Definition push (v : value) : M machine unit := fun s => Ok tt (set_operands s (v :: x_operands s)).
(** 499-501, [try_pop]. *)
Definition try_pop : M machine (option value) :=
  fun s => match x_operands s with
           | v :: l => Ok (Some v) (set_operands s l)
           | [] => Ok None s
           end.
(** 495-497, [pop]. *)
Definition pop : M machine value := o <- try_pop ;; unwrap o.
(** 503-508, [try_pop_i32], with the [unwrap] that follows it everywhere. *)
Definition pop_i32 : M machine Z :=
  v <- pop ;;
  match v with VInt I32 x => ret x | _ => panic "called `Result::unwrap()` on an `Err` value" end.
(** 510-523, [try_pop_object] and [try_pop_array]; the error gets its message in 388 and 403. *)
Definition pop_array : M machine obj :=
  v <- pop ;;
  match v with
  | VObject o => b <- as_array o ;; if (b : bool) then ret o else fail "Invalid operation: Stelem on"
  | _ => fail "Invalid operation: Stelem on"
  end.
(** 525-531, [peek]. *)
Definition peek_top : M machine value :=
  fun s => match x_operands s with
           | v :: _ => Ok v s
           | [] => Panic "called `Option::unwrap()` on a `None` value"
           end.

(** ** Local variables and arguments *)

(** The zero cell. *)
Definition zero_cell : value := VInt I8 0.

(** A slice of cells: the host's parameters, or [n] cells from [base] on in a buffer. *)
Inductive cells := CHost | CFrames (gen : nat) (base n : N).

(** 533-539, [stackalloc], for [n] cells. *)
Definition stackalloc (n : N) : M machine cells :=
  fun s =>
    let k := x_frames s in
    let base := len (k_cells k) in
    let k' := if k_cap k <? base + n
              then mkFrames (S (k_gen k)) (N.max (2 * k_cap k) (base + n)) (k_cells k ++ repeat zero_cell (N.to_nat n))
              else mkFrames (k_gen k) (k_cap k) (k_cells k ++ repeat zero_cell (N.to_nat n)) in
    Ok (CFrames (k_gen k') base n) (set_alloc (set_frames s k') (x_alloc s + n)).

(** [slice[i]]: the bounds check comes first. *)
Definition cell_get (c : cells) (i : N) : M machine value :=
  fun s =>
    match c with
    | CHost => match nth_error (x_host s) (N.to_nat i) with
               | Some v => Ok v s
               | None => Panic "index out of bounds"
               end
    | CFrames g base n =>
        if n <=? i then Panic "index out of bounds"
        else if negb (Nat.eqb g (k_gen (x_frames s))) then Ub "access to memory that has been freed"
        else match nth_error (k_cells (x_frames s)) (N.to_nat (base + i)) with
             | Some v => Ok v s
             | None => Ub "access outside the frames"
             end
    end.

(** [slice[i] = v]. *)
Definition cell_set (c : cells) (i : N) (v : value) : M machine unit :=
  fun s =>
    match c with
    | CHost => if len (x_host s) <=? i then Panic "index out of bounds"
               else Ok tt (set_host s (update (x_host s) (N.to_nat i) (fun _ => v)))
    | CFrames g base n =>
        let k := x_frames s in
        if n <=? i then Panic "index out of bounds"
        else if negb (Nat.eqb g (k_gen k)) then Ub "access to memory that has been freed"
        else if len (k_cells k) <=? base + i then Ub "access outside the frames"
        else Ok tt (set_frames s (mkFrames (k_gen k) (k_cap k)
                                   (update (k_cells k) (N.to_nat (base + i)) (fun _ => v))))
    end.

(** ** Code *)

(** 9-18, [StackFrame], with the slices of its local variables and arguments. *)
Record frame := mkFrame {
  fr_method : method_info; fr_assembly : aref; fr_code : list byte; fr_ip : N;
  fr_locals : cells; fr_params : cells }.
Definition set_ip (fr : frame) (ip : N) : frame :=
  mkFrame (fr_method fr) (fr_assembly fr) (fr_code fr) ip (fr_locals fr) (fr_params fr).

(** [code[i]]. *)
Definition code_at (fr : frame) (i : N) : M machine N :=
  match nth_error (fr_code fr) (N.to_nat i) with Some b => ret (bn b) | None => panic "index out of bounds" end.

(** 472-482, [get_opcode]; [Opcodes::Prefix7] is 0xf8. *)
Definition get_opcode (fr : frame) : M machine (opcode * frame) :=
  val <- code_at fr (fr_ip fr) ;;
  if opcode_code Prefix7 <? val then
    b <- code_at fr (fr_ip fr + 1) ;;
    op <- unwrap (from_u16 (N.lor b (N.shiftl val 8))) ;;
    ret (op, set_ip fr (fr_ip fr + 2))
  else
    op <- unwrap (from_u16 val) ;;
    ret (op, set_ip fr (fr_ip fr + 1)).

(** 484-489, [il_get] for a type of [n] bytes: an unchecked read. *)
Definition il_get (fr : frame) (n : N) : M machine (N * frame) :=
  if fr_ip fr + n <=? len (fr_code fr) then
    ret (le_dec (sub_list (fr_ip fr) n (fr_code fr)), set_ip fr (fr_ip fr + n))
  else ub "read past the end of the code".

(** 158 and the like: [ip = ((ip as isize) + offset as isize) as usize]. *)
Definition jump (fr : frame) (offset : Z) : frame :=
  set_ip fr (to_unsigned 64 (Z.of_N (fr_ip fr) + offset)).

(** ** One instruction *)

(** What an instruction leads to.  [OCall m args o fr]: call [m], push its result, if any, then
    [o], if any, and go on with [fr]. *)
Inductive outcome :=
| ONext (fr : frame)
| OReturn (v : option value)
| OCall (m : method_info) (args : cells) (result : option value) (fr : frame).

Definition next (fr : frame) : M machine outcome := ret (ONext fr).

(** Reading an operand of [n] bytes, signed. *)
Definition il_signed (fr : frame) (n : N) : M machine (Z * frame) :=
  ' (x, fr) <- il_get fr n ;; ret (to_signed (8 * n) x, fr).

(** 67-82: load a constant. *)
Definition ldc (fr : frame) (v : value) : M machine outcome := push v ;;; next fr.
(** 98-121 and 123-134: load from, store to position [i] of a slice. *)
Definition ld (fr : frame) (c : cells) (i : N) : M machine outcome :=
  v <- cell_get c i ;; push v ;;; next fr.
Definition st (fr : frame) (c : cells) (i : N) : M machine outcome :=
  v <- pop ;; cell_set c i v ;;; next fr.
(** The same with the position in the code, as a number of [n] bytes. *)
Definition ld_n (n : N) (fr : frame) (c : cells) : M machine outcome :=
  ' (i, fr) <- il_get fr n ;; ld fr c i.
Definition st_n (n : N) (fr : frame) (c : cells) : M machine outcome :=
  ' (i, fr) <- il_get fr n ;; st fr c i.

(** 156-163: unconditional branches. *)
Definition br (n : N) (fr : frame) : M machine outcome :=
  ' (d, fr) <- il_signed fr n ;; next (jump fr d).
(** 164-187: branches on one operand. *)
Definition br_if (n : N) (fr : frame) (zero : bool) : M machine outcome :=
  ' (d, fr) <- il_signed fr n ;;
  v <- pop ;;
  b <- is_null_or_zero v ;;
  next (if Bool.eqb b zero then jump fr d else fr).
(** 188-267: branches on two operands; [test a b] where [b] was on top. *)
Definition br_cmp (n : N) (fr : frame) (test : value -> value -> M machine bool) : M machine outcome :=
  b <- pop ;;
  a <- pop ;;
  ' (d, fr) <- il_signed fr n ;;
  t <- test a b ;;
  next (if t then jump fr d else fr).
(** 269-283: comparisons. *)
Definition compare (fr : frame) (test : value -> value -> M machine bool) : M machine outcome :=
  b <- pop ;;
  a <- pop ;;
  t <- test a b ;;
  push (VInt I32 (if t then 1 else 0)) ;;;
  next fr.
(** 188-203, 269-273: for equality the operand on top is on the left. *)
Definition eq_test (a b : value) : M machine bool := v_eq b a.
(** 285-343: operators. *)
Definition op2 (fr : frame) (f : value -> value -> M machine value) : M machine outcome :=
  b <- pop ;;
  a <- pop ;;
  v <- f a b ;;
  push v ;;;
  next fr.
Definition op1 (fr : frame) (f : value -> M machine value) : M machine outcome :=
  a <- pop ;;
  v <- f a ;;
  push v ;;;
  next fr.

(** 460-462: the last argument is on top of the operand stack. *)
Fixpoint pop_args (c : cells) (n : nat) : M machine unit :=
  match n with
  | O => ret tt
  | S i => v <- pop ;; cell_set c (N.of_nat i) v ;;; pop_args c i
  end.

(** 438-462, [method_call] up to the call itself. *)
Definition method_call (p : profile) (fr : frame) (tok : N) (result : option value) : M machine outcome :=
  o <- on_vm (resolve_method p (fr_assembly fr) tok) ;;
  match o with
  | None => fail "Cannot find method for metadata token"
  | Some m =>
      let n := if mt_static m then len (mt_params m) else len (mt_params m) + 1 in
      c <- stackalloc n ;;
      pop_args c (N.to_nat n) ;;;
      ret (OCall m c result fr)
  end.

(** 345-357, [Newobj]: the object goes below the constructor's arguments. *)
Definition newobj (fuel : nat) (p : profile) (fr : frame) : M machine outcome :=
  ' (tok, fr) <- il_get fr 4 ;;
  o <- on_vm (resolve_method p (fr_assembly fr) tok) ;;
  ctor <- unwrap o ;;
  o <- alloc fuel p (mt_declaring ctor) ;;
  (fun s =>
     let n := List.length (mt_params ctor) in
     if Nat.leb n (List.length (x_operands s)) then
       Ok tt (set_operands s (firstn n (x_operands s) ++ VObject o :: skipn n (x_operands s)))
     else Panic "insertion index (is ...) should be <= len") ;;;
  method_call p fr tok (Some (VObject o)).

(** 358-366, [Stfld]. *)
Definition stfld (p : profile) (fr : frame) : M machine outcome :=
  ' (tok, fr) <- il_get fr 4 ;;
  o <- on_vm (resolve_field p (fr_assembly fr) tok) ;;
  f <- unwrap o ;;
  v <- pop ;;
  o <- pop ;;
  match o with
  | VObject o => set_field o f v ;;; next fr
  | _ => fail "Cannot store field in"
  end.
(** 367-374, [Ldfld]. *)
Definition ldfld (p : profile) (fr : frame) : M machine outcome :=
  ' (tok, fr) <- il_get fr 4 ;;
  o <- on_vm (resolve_field p (fr_assembly fr) tok) ;;
  f <- unwrap o ;;
  o <- pop ;;
  match o with
  | VObject o => v <- get_field_value o f ;; push v ;;; next fr
  | _ => fail "Cannot load field from"
  end.

(** 376-382, [Newarr]; [as usize] extends the sign. *)
Definition newarr (fuel : nat) (p : profile) (fr : frame) : M machine outcome :=
  ' (tok, fr) <- il_get fr 4 ;;
  o <- on_vm (resolve_type p (fr_assembly fr) tok) ;;
  t <- unwrap o ;;
  n <- pop_i32 ;;
  o <- alloc_array fuel p t (to_unsigned 64 n) ;;
  push (VObject o) ;;;
  next fr.

(** 390-396 and 404-410: the slice of an array of [i32]; making the message needs the type of the
    array and the type [System.Int32[]]. *)
Definition i32_slice (o : obj) : M machine N :=
  n <- array_slice o (HInt I32) ;;
  match n with
  | Some n => ret n
  | None => type_of o ;;; on_vm (named "System.Int32[]") ;;; fail "Cannot use"
  end.
(** 384-398, [Stelem_I4]. *)
Definition stelem_i4 (fr : frame) : M machine outcome :=
  v <- pop_i32 ;;
  i <- pop_i32 ;;
  o <- pop_array ;;
  n <- i32_slice o ;;
  slice_set o (HInt I32) n (to_unsigned 64 i) (le_enc 4 (to_unsigned 32 v)) ;;;
  next fr.
(** 399-412, [Ldelem_I4]. *)
Definition ldelem_i4 (fr : frame) : M machine outcome :=
  i <- pop_i32 ;;
  o <- pop_array ;;
  n <- i32_slice o ;;
  bs <- slice_get o (HInt I32) n (to_unsigned 64 i) ;;
  push (VInt I32 (to_signed 32 (le_dec bs))) ;;;
  next fr.

(** 414-425, [Ldstr]. *)
Definition ldstr (p : profile) (fr : frame) : M machine outcome :=
  ' (tok, fr) <- il_get fr 4 ;;
  o <- on_vm (get_string p (fr_assembly fr) tok) ;;
  match o with
  | None => fail "Cannot find string for token"
  | Some text => o <- alloc_string p text ;; push (VObject o) ;;; next fr
  end.

(** 58-65, [Ret]. *)
Definition ret_op (fr : frame) : M machine outcome :=
  o <- on_vm (get_type (bytes_of_string "System.Void")) ;;
  b <- match o with None => ret false | Some t => on_vm (type_eq (mt_return (fr_method fr)) t) end ;;
  if (b : bool) then ret (OReturn None) else v <- try_pop ;; ret (OReturn v).

(** 55-434: the [match] on the opcode; [fr] is behind the opcode. *)
Definition exec_op (fuel : nat) (p : profile) (op : opcode) (fr : frame) : M machine outcome :=
  let loc := fr_locals fr in
  let arg := fr_params fr in
  let i32 x := VInt I32 x in
  match op with
  | Nop => next fr
  | Ret => ret_op fr
  | Ldc_I4_M1 => ldc fr (i32 (-1)%Z)
  | Ldc_I4_0 => ldc fr (i32 0%Z)
  | Ldc_I4_1 => ldc fr (i32 1%Z)
  | Ldc_I4_2 => ldc fr (i32 2%Z)
  | Ldc_I4_3 => ldc fr (i32 3%Z)
  | Ldc_I4_4 => ldc fr (i32 4%Z)
  | Ldc_I4_5 => ldc fr (i32 5%Z)
  | Ldc_I4_6 => ldc fr (i32 6%Z)
  | Ldc_I4_7 => ldc fr (i32 7%Z)
  | Ldc_I4_8 => ldc fr (i32 8%Z)
  | Ldc_I4_S => ' (x, fr) <- il_signed fr 1 ;; ldc fr (i32 x)
  | Ldc_I4 => ' (x, fr) <- il_signed fr 4 ;; ldc fr (i32 x)
  | Ldc_I8 => ' (x, fr) <- il_signed fr 8 ;; ldc fr (VInt I64 x)
  | Ldc_R4 => ' (x, fr) <- il_get fr 4 ;; ldc fr (VF32 x)
  | Ldc_R8 => ' (x, fr) <- il_get fr 8 ;; ldc fr (VF64 x)
  | Ldloc => ld_n 2 fr loc
  | Ldloc_S => ld_n 1 fr loc
  | Ldloc_0 => ld fr loc 0
  | Ldloc_1 => ld fr loc 1
  | Ldloc_2 => ld fr loc 2
  | Ldloc_3 => ld fr loc 3
  | Stloc => st_n 2 fr loc
  | Stloc_S => st_n 1 fr loc
  | Stloc_0 => st fr loc 0
  | Stloc_1 => st fr loc 1
  | Stloc_2 => st fr loc 2
  | Stloc_3 => st fr loc 3
  | Ldarg_S => ld_n 1 fr arg
  | Ldarg => ld_n 4 fr arg
  | Ldarg_0 => ld fr arg 0
  | Ldarg_1 => ld fr arg 1
  | Ldarg_2 => ld fr arg 2
  | Ldarg_3 => ld fr arg 3
  | Starg_S => st_n 1 fr arg
  | Starg => st_n 4 fr arg
  | Dup => v <- peek_top ;; push v ;;; next fr
  | Pop => pop ;;; next fr
  | Call => ' (tok, fr) <- il_get fr 4 ;; method_call p fr tok None
  | Br_S => br 1 fr
  | Br => br 4 fr
  | Brfalse => br_if 4 fr true
  | Brfalse_S => br_if 1 fr true
  | Brtrue => br_if 4 fr false
  | Brtrue_S => br_if 1 fr false
  | Beq => br_cmp 4 fr eq_test
  | Beq_S => br_cmp 1 fr eq_test
  | Bge => br_cmp 4 fr v_ge
  | Bge_S => br_cmp 1 fr v_ge
  | Bgt => br_cmp 4 fr v_gt
  | Bgt_S => br_cmp 1 fr v_gt
  | Ble => br_cmp 4 fr v_le
  | Ble_S => br_cmp 1 fr v_le
  | Blt => br_cmp 4 fr v_lt
  | Blt_S => br_cmp 1 fr v_lt
  | Ceq => compare fr eq_test
  | Cgt | Cgt_Un => compare fr v_gt
  | Clt | Clt_Un => compare fr v_lt
  | Add => op2 fr (v_add p)
  | Sub => op2 fr (v_sub p)
  | Mul => op2 fr (v_mul p)
  | Div | Div_Un => op2 fr v_div
  | Rem | Rem_Un => op2 fr v_rem
  | Neg => op1 fr (v_neg p)
  | And => op2 fr v_and
  | Or => op2 fr v_or
  | Xor => op2 fr v_xor
  | Not => op1 fr v_not
  | Shl => op2 fr (v_shl p)
  | Shr => op2 fr (v_shr p)
  | Newobj => newobj fuel p fr
  | Stfld => stfld p fr
  | Ldfld => ldfld p fr
  | Newarr => newarr fuel p fr
  | Stelem_I4 => stelem_i4 fr
  | Ldelem_I4 => ldelem_i4 fr
  | Ldstr => ldstr p fr
  | op => fail ("Use of unimplemented instruction " ++ opcode_name op)
  end.

(** 53-435: one turn of the loop. *)
Definition step (fuel : nat) (p : profile) (fr : frame) : M machine outcome :=
  ' (op, fr) <- get_opcode fr ;; exec_op fuel p op fr.

(** ** Calls *)

(** internal_method/System_Console.rs:6-14, [console_write]; the copy on the process's standard
    output is not modelled. *)
Definition console_write (args : cells) : M machine (option value) :=
  v <- cell_get args 0 ;;
  match v with
  | VObject o =>
      b <- as_string o ;;
      if (b : bool) then
        units <- string_data o ;;
        text <- unwrap (utf16_decode units) ;;
        on_vm (fun s => Ok tt (set_output s (c_output s ++ text))) ;;;
        ret None
      else panic "called `Option::unwrap()` on a `None` value"
  | _ => panic "not implemented"
  end.

(** A frame from its creation (21-36) to the end of its life (546-552), whether by a result or by
    an error. *)
Definition in_frame {A} (m : M machine A) : M machine A :=
  fun s =>
    let leave s' :=
      let k := x_frames s' in
      set_alloc (set_frames s' (mkFrames (k_gen k) (k_cap k)
                                 (firstn (N.to_nat (len (k_cells k) - x_alloc s')) (k_cells k))))
                (x_alloc s) in
    match m (set_alloc s 0) with
    | Ok a s' => Ok a (leave s')
    | Err e s' => Err e (leave s')
    | Panic w => Panic w
    | Ub w => Ub w
    | NoFuel => NoFuel
    end.

(** interpreter/mod.rs:37-43, [Interpreter::execute]; 38-51, the start of [StackFrame::execute];
    [run] is the loop. *)
Definition invoke (run : frame -> M machine (option value)) (m : method_info) (args : cells)
    : M machine (option value) :=
  match mt_impl m with
  | IIL b =>
      ti <- on_vm (the_type (mt_declaring m)) ;;
      on_vm (the_assembly (ti_assembly ti)) ;;;
      in_frame (
        locals <- stackalloc (len (b_locals b)) ;;
        run (mkFrame m (ti_assembly ti) (b_code b) 0 locals args))
  | IInternal ConsoleWrite => console_write args
  | IInternal _ => panic "not implemented"
  | INone => panic "not implemented"
  end.

Definition push_if (o : option value) : M machine unit :=
  match o with Some v => push v | None => ret tt end.

(** 53-435, the loop, and 464-467, the rest of [method_call].  [fuel] bounds the number of
    instructions along every path; running out of it is [NoFuel]. *)
Fixpoint run (fuel : nat) (p : profile) (fr : frame) : M machine (option value) :=
  match fuel with
  | O => nofuel
  | S f =>
      o <- step f p fr ;;
      match o with
      | ONext fr' => run f p fr'
      | OReturn v => ret v
      | OCall m args result fr' =>
          v <- invoke (run f p) m args ;;
          push_if v ;;;
          push_if result ;;;
          run f p fr'
      end
  end.

(** interpreter/mod.rs:28-35, [Interpreter::new]: 1024 bytes are 64 cells. *)
Definition new_machine (s : vm) (params : list value) : machine :=
  mkMachine s (mkHeap 0 1024 []) (mkFrames 0 64 []) 0 [] params.

(** mod.rs:25-39, [RunResult], without the variant for objects. *)
Inductive run_result := RVoid | RValue (v : value) | RErr (e : string).

(** mod.rs:130-166, [ClrLite::execute].  The second part of the result is what the host finds in
    its parameters afterwards.  The interpreter, and with it the heap, is a temporary of line 140
    and gone when line 155 reads the data of a returned object. *)
Definition execute (fuel : nat) (p : profile) (m : method_info) (params : list value)
    : M vm (run_result * list value) :=
  fun s =>
    if negb (mt_static m) then
      match the_type (mt_declaring m) s with
      | Ok _ _ => Ok (RErr "Cannot use non-static method", params) s
      | _ => Panic "called `Option::unwrap()` on a `None` value"
      end
    else
      match invoke (run fuel p) m CHost (new_machine s params) with
      | Ok (Some (VObject _)) _ => Ub "access to memory that has been freed"
      | Ok (Some v) s' => Ok (RValue v, x_host s') (x_vm s')
      | Ok None s' => Ok (RVoid, x_host s') (x_vm s')
      | Err e s' => Ok (RErr e, x_host s') (x_vm s')
      | Panic w => Panic w
      | Ub w => Ub w
      | NoFuel => NoFuel
      end.

(** Model of the texts of the errors that instructions and executions end with:
    /repo/clr_lite/src/vm/interpreter/stack_frame.rs:345-452 and vm/mod.rs:133-139.  Line numbers without
    a file name are those of stack_frame.rs; other file names are relative to /repo/clr_lite/src/vm.

    Interp.v has the fixed part of each message; here the instructions are gone through once more, up to
    where they fail, and give the whole text: [Some text] for an error, [None] when they do not fail here.
    What Rust's standard library makes of a float, and the address of an object, are left open (they are
    the parameter [pr]). *)
From Coq Require Import NArith ZArith String List Bool.
From Coq.Strings Require Import Byte.
From Verif Require Import Base Metadata Runtime Value Opcodes Gc Interp Texts.
Import ListNotations.
Open Scope N_scope.

(** [Debug] of [f32], [f64] and of a raw pointer. *)
Record printers := mkPrinters { pr_f32 : N -> name; pr_f64 : N -> name; pr_pointer : obj -> name }.

(** The digits of [fmt::Display] for integers in the standard library: the last digit first.  Its buffer
    has room for 39 digits and a [u64] has at most 20; here there is room for every number. *)
Fixpoint decimal (fuel : nat) (n : N) (acc : list byte) : list byte :=
  match fuel with
  | O => acc
  | S fuel' =>
      let acc' := nb (48 + n mod 10) :: acc in
      if n / 10 =? 0 then acc' else decimal fuel' (n / 10) acc'
  end.
Definition int_text (x : Z) : name :=
  (if (x <? 0)%Z then bytes_of_string "-" else []) ++ decimal (S (N.to_nat (N.log2 (Z.abs_N x)))) (Z.abs_N x) [].

(** interpreter/value.rs:8-21, the derived [Debug] of [Value], and gc/object.rs:23-25, that of [Object]. *)
Definition ity_text (t : ity) : name :=
  bytes_of_string match t with
                  | I8 => "I8" | U8 => "U8" | I16 => "I16" | U16 => "U16"
                  | I32 => "I32" | U32 => "U32" | I64 => "I64" | U64 => "U64"
                  end.
Definition wrapped (what inside : name) : name := what ++ bytes_of_string "(" ++ inside ++ bytes_of_string ")".
Definition value_text (pr : printers) (v : value) : name :=
  match v with
  | VInt t x => wrapped (ity_text t) (int_text x)
  | VF32 b => wrapped (bytes_of_string "F32") (pr_f32 pr b)
  | VF64 b => wrapped (bytes_of_string "F64") (pr_f64 pr b)
  | VObject o => wrapped (bytes_of_string "Object") (wrapped (bytes_of_string "Object") (pr_pointer pr o))
  end.

(** 438-445, the start of [method_call]. *)
Definition method_call_text (p : profile) (fr : frame) (tok : N) : M machine (option name) :=
  o <- on_vm (resolve_method p (fr_assembly fr) tok) ;;
  match o with
  | None =>
      ai <- on_vm (the_assembly (fr_assembly fr)) ;;
      ret (Some (bytes_of_string "Cannot find method for metadata token " ++ token_text tok ++
                 bytes_of_string " in " ++ a_name ai))
  | Some _ => ret None
  end.

(** 345-356, [Newobj], up to the call. *)
Definition newobj_text (fuel : nat) (p : profile) (fr : frame) : M machine (option name) :=
  ' (tok, fr) <- il_get fr 4 ;;
  o <- on_vm (resolve_method p (fr_assembly fr) tok) ;;
  ctor <- unwrap o ;;
  o <- alloc fuel p (mt_declaring ctor) ;;
  (fun s =>
     let n := List.length (mt_params ctor) in
     if Nat.leb n (List.length (x_operands s)) then
       Ok tt (set_operands s (firstn n (x_operands s) ++ VObject o :: skipn n (x_operands s)))
     else Panic "insertion index (is ...) should be <= len") ;;;
  method_call_text p fr tok.

(** 358-366, [Stfld]. *)
Definition stfld_text (pr : printers) (p : profile) (fr : frame) : M machine (option name) :=
  ' (tok, fr) <- il_get fr 4 ;;
  o <- on_vm (resolve_field p (fr_assembly fr) tok) ;;
  f <- unwrap o ;;
  v <- pop ;;
  o <- pop ;;
  match o with
  | VObject _ => ret None
  | _ => ret (Some (bytes_of_string "Cannot store field in " ++ value_text pr o))
  end.
(** 367-374, [Ldfld]. *)
Definition ldfld_text (pr : printers) (p : profile) (fr : frame) : M machine (option name) :=
  ' (tok, fr) <- il_get fr 4 ;;
  o <- on_vm (resolve_field p (fr_assembly fr) tok) ;;
  f <- unwrap o ;;
  o <- pop ;;
  match o with
  | VObject _ => ret None
  | _ => ret (Some (bytes_of_string "Cannot load field from " ++ value_text pr o))
  end.

(** 387-396 and 401-410, the same for both instructions: the operand is no array, or the array is not one
    of [i32]. *)
Definition array_text (pr : printers) : M machine (option name) :=
  v <- pop ;;
  match v with
  | VObject o =>
      b <- as_array o ;;
      if (b : bool) then
        n <- array_slice o (HInt I32) ;;
        match n with
        | Some _ => ret None
        | None =>
            t <- type_of o ;;
            u <- on_vm (named "System.Int32[]") ;;
            x <- on_vm (type_text t) ;;
            y <- on_vm (type_text u) ;;
            ret (Some (bytes_of_string "Cannot use " ++ x ++ bytes_of_string " as " ++ y))
        end
      else ret (Some (bytes_of_string "Invalid operation: Stelem on " ++ value_text pr v))
  | _ => ret (Some (bytes_of_string "Invalid operation: Stelem on " ++ value_text pr v))
  end.
(** 384-398, [Stelem_I4]. *)
Definition stelem_i4_text (pr : printers) : M machine (option name) :=
  v <- pop_i32 ;; i <- pop_i32 ;; array_text pr.
(** 399-412, [Ldelem_I4]. *)
Definition ldelem_i4_text (pr : printers) : M machine (option name) := i <- pop_i32 ;; array_text pr.

(** 414-422, [Ldstr]. *)
Definition ldstr_text (p : profile) (fr : frame) : M machine (option name) :=
  ' (tok, fr) <- il_get fr 4 ;;
  o <- on_vm (get_string p (fr_assembly fr) tok) ;;
  match o with
  | None => ret (Some (bytes_of_string "Cannot find string for token " ++ token_text tok))
  | Some _ => ret None
  end.

(** [{:04x}]: at least four digits. *)
Definition hex4 (n : N) : name := let ds := hex_of n in repeat x30 (4 - List.length ds) ++ ds.
(** 427-433; [fr] is behind the opcode, so [self.ip] is at least 1.  The derived [Debug] of [Opcodes] is the
    name of the variant (Opcodes.v). *)
Definition unimplemented_text (op : opcode) (fr : frame) : name :=
  bytes_of_string ("Use of unimplemented instruction " ++ opcode_name op ++ " at IL_") ++ hex4 (fr_ip fr - 1).

(** The instructions for which the [match] of 55-434 has an arm that does not fail. *)
Definition never_fails (op : opcode) : bool :=
  match op with
  | Nop | Ret | Ldc_I4_M1 | Ldc_I4_0 | Ldc_I4_1 | Ldc_I4_2 | Ldc_I4_3 | Ldc_I4_4 | Ldc_I4_5 | Ldc_I4_6
  | Ldc_I4_7 | Ldc_I4_8 | Ldc_I4_S | Ldc_I4 | Ldc_I8 | Ldc_R4 | Ldc_R8 | Ldloc | Ldloc_S | Ldloc_0
  | Ldloc_1 | Ldloc_2 | Ldloc_3 | Stloc | Stloc_S | Stloc_0 | Stloc_1 | Stloc_2 | Stloc_3 | Ldarg_S | Ldarg
  | Ldarg_0 | Ldarg_1 | Ldarg_2 | Ldarg_3 | Starg_S | Starg | Dup | Pop | Br_S | Br | Brfalse | Brfalse_S
  | Brtrue | Brtrue_S | Beq | Beq_S | Bge | Bge_S | Bgt | Bgt_S | Ble | Ble_S | Blt | Blt_S | Ceq | Cgt
  | Cgt_Un | Clt | Clt_Un | Add | Sub | Mul | Div | Div_Un | Rem | Rem_Un | Neg | And | Or | Xor | Not | Shl
  | Shr | Newarr => true
  | _ => false
  end.
(** 55-434: the [match] on the opcode. *)
Definition op_text (pr : printers) (fuel : nat) (p : profile) (op : opcode) (fr : frame) : M machine (option name) :=
  match op with
  | Call => ' (tok, fr) <- il_get fr 4 ;; method_call_text p fr tok
  | Newobj => newobj_text fuel p fr
  | Stfld => stfld_text pr p fr
  | Ldfld => ldfld_text pr p fr
  | Stelem_I4 => stelem_i4_text pr
  | Ldelem_I4 => ldelem_i4_text pr
  | Ldstr => ldstr_text p fr
  | _ => if never_fails op then ret None else ret (Some (unimplemented_text op fr))
  end.
(** 53-435: one turn of the loop. *)
Definition step_text (pr : printers) (fuel : nat) (p : profile) (fr : frame) : M machine (option name) :=
  ' (op, fr) <- get_opcode fr ;; op_text pr fuel p op fr.

(** mod.rs:133-139: an instance method as the entry point. *)
Definition entry_text (m : method_info) : M vm (option name) :=
  if negb (mt_static m) then
    t <- type_text (mt_declaring m) ;;
    ret (Some (bytes_of_string "Cannot use non-static method " ++ t ++ bytes_of_string "." ++ mt_name m ++
               bytes_of_string " as entry point"))
  else ret None.

(** The instructions of CIL, as ECMA-335 III lists them: the bytes of each one and its mnemonic.
    Partition III, 1.2.1 (table of opcodes); nothing here comes from the model. *)
From Coq Require Import Ascii String List.
From Coq.Strings Require Import Byte.
Import ListNotations.

Local Open Scope string_scope.
Definition instructions : list (list byte * string) :=
  [([x00], "nop"); ([x01], "break"); ([x02], "ldarg.0"); ([x03], "ldarg.1"); ([x04], "ldarg.2");
    ([x05], "ldarg.3"); ([x06], "ldloc.0"); ([x07], "ldloc.1"); ([x08], "ldloc.2"); ([x09], "ldloc.3");
    ([x0a], "stloc.0"); ([x0b], "stloc.1"); ([x0c], "stloc.2"); ([x0d], "stloc.3"); ([x0e], "ldarg.s");
    ([x0f], "ldarga.s"); ([x10], "starg.s"); ([x11], "ldloc.s"); ([x12], "ldloca.s"); ([x13], "stloc.s");
    ([x14], "ldnull"); ([x15], "ldc.i4.m1"); ([x16], "ldc.i4.0"); ([x17], "ldc.i4.1"); ([x18], "ldc.i4.2");
    ([x19], "ldc.i4.3"); ([x1a], "ldc.i4.4"); ([x1b], "ldc.i4.5"); ([x1c], "ldc.i4.6"); ([x1d], "ldc.i4.7");
    ([x1e], "ldc.i4.8"); ([x1f], "ldc.i4.s"); ([x20], "ldc.i4"); ([x21], "ldc.i8"); ([x22], "ldc.r4");
    ([x23], "ldc.r8"); ([x25], "dup"); ([x26], "pop"); ([x27], "jmp"); ([x28], "call"); ([x29], "calli");
    ([x2a], "ret"); ([x2b], "br.s"); ([x2c], "brfalse.s"); ([x2d], "brtrue.s"); ([x2e], "beq.s");
    ([x2f], "bge.s"); ([x30], "bgt.s"); ([x31], "ble.s"); ([x32], "blt.s"); ([x33], "bne.un.s");
    ([x34], "bge.un.s"); ([x35], "bgt.un.s"); ([x36], "ble.un.s"); ([x37], "blt.un.s"); ([x38], "br");
    ([x39], "brfalse"); ([x3a], "brtrue"); ([x3b], "beq"); ([x3c], "bge"); ([x3d], "bgt"); ([x3e], "ble");
    ([x3f], "blt"); ([x40], "bne.un"); ([x41], "bge.un"); ([x42], "bgt.un"); ([x43], "ble.un");
    ([x44], "blt.un"); ([x45], "switch"); ([x46], "ldind.i1"); ([x47], "ldind.u1"); ([x48], "ldind.i2");
    ([x49], "ldind.u2"); ([x4a], "ldind.i4"); ([x4b], "ldind.u4"); ([x4c], "ldind.i8"); ([x4d], "ldind.i");
    ([x4e], "ldind.r4"); ([x4f], "ldind.r8"); ([x50], "ldind.ref"); ([x51], "stind.ref"); ([x52], "stind.i1");
    ([x53], "stind.i2"); ([x54], "stind.i4"); ([x55], "stind.i8"); ([x56], "stind.r4"); ([x57], "stind.r8");
    ([x58], "add"); ([x59], "sub"); ([x5a], "mul"); ([x5b], "div"); ([x5c], "div.un"); ([x5d], "rem");
    ([x5e], "rem.un"); ([x5f], "and"); ([x60], "or"); ([x61], "xor"); ([x62], "shl"); ([x63], "shr");
    ([x64], "shr.un"); ([x65], "neg"); ([x66], "not"); ([x67], "conv.i1"); ([x68], "conv.i2");
    ([x69], "conv.i4"); ([x6a], "conv.i8"); ([x6b], "conv.r4"); ([x6c], "conv.r8"); ([x6d], "conv.u4");
    ([x6e], "conv.u8"); ([x6f], "callvirt"); ([x70], "cpobj"); ([x71], "ldobj"); ([x72], "ldstr");
    ([x73], "newobj"); ([x74], "castclass"); ([x75], "isinst"); ([x76], "conv.r.un"); ([x79], "unbox");
    ([x7a], "throw"); ([x7b], "ldfld"); ([x7c], "ldflda"); ([x7d], "stfld"); ([x7e], "ldsfld");
    ([x7f], "ldsflda"); ([x80], "stsfld"); ([x81], "stobj"); ([x82], "conv.ovf.i1.un");
    ([x83], "conv.ovf.i2.un"); ([x84], "conv.ovf.i4.un"); ([x85], "conv.ovf.i8.un");
    ([x86], "conv.ovf.u1.un"); ([x87], "conv.ovf.u2.un"); ([x88], "conv.ovf.u4.un");
    ([x89], "conv.ovf.u8.un"); ([x8a], "conv.ovf.i.un"); ([x8b], "conv.ovf.u.un"); ([x8c], "box");
    ([x8d], "newarr"); ([x8e], "ldlen"); ([x8f], "ldelema"); ([x90], "ldelem.i1"); ([x91], "ldelem.u1");
    ([x92], "ldelem.i2"); ([x93], "ldelem.u2"); ([x94], "ldelem.i4"); ([x95], "ldelem.u4");
    ([x96], "ldelem.i8"); ([x97], "ldelem.i"); ([x98], "ldelem.r4"); ([x99], "ldelem.r8");
    ([x9a], "ldelem.ref"); ([x9b], "stelem.i"); ([x9c], "stelem.i1"); ([x9d], "stelem.i2");
    ([x9e], "stelem.i4"); ([x9f], "stelem.i8"); ([xa0], "stelem.r4"); ([xa1], "stelem.r8");
    ([xa2], "stelem.ref"); ([xa3], "ldelem"); ([xa4], "stelem"); ([xa5], "unbox.any"); ([xb3], "conv.ovf.i1");
    ([xb4], "conv.ovf.u1"); ([xb5], "conv.ovf.i2"); ([xb6], "conv.ovf.u2"); ([xb7], "conv.ovf.i4");
    ([xb8], "conv.ovf.u4"); ([xb9], "conv.ovf.i8"); ([xba], "conv.ovf.u8"); ([xc2], "refanyval");
    ([xc3], "ckfinite"); ([xc6], "mkrefany"); ([xd0], "ldtoken"); ([xd1], "conv.u2"); ([xd2], "conv.u1");
    ([xd3], "conv.i"); ([xd4], "conv.ovf.i"); ([xd5], "conv.ovf.u"); ([xd6], "add.ovf");
    ([xd7], "add.ovf.un"); ([xd8], "mul.ovf"); ([xd9], "mul.ovf.un"); ([xda], "sub.ovf");
    ([xdb], "sub.ovf.un"); ([xdc], "endfinally"); ([xdd], "leave"); ([xde], "leave.s"); ([xdf], "stind.i");
    ([xe0], "conv.u"); ([xfe; x00], "arglist"); ([xfe; x01], "ceq"); ([xfe; x02], "cgt");
    ([xfe; x03], "cgt.un"); ([xfe; x04], "clt"); ([xfe; x05], "clt.un"); ([xfe; x06], "ldftn");
    ([xfe; x07], "ldvirtftn"); ([xfe; x09], "ldarg"); ([xfe; x0a], "ldarga"); ([xfe; x0b], "starg");
    ([xfe; x0c], "ldloc"); ([xfe; x0d], "ldloca"); ([xfe; x0e], "stloc"); ([xfe; x0f], "localloc");
    ([xfe; x11], "endfilter"); ([xfe; x12], "unaligned."); ([xfe; x13], "volatile."); ([xfe; x14], "tail.");
    ([xfe; x15], "initobj"); ([xfe; x16], "constrained."); ([xfe; x17], "cpblk"); ([xfe; x18], "initblk");
    ([xfe; x19], "no."); ([xfe; x1a], "rethrow"); ([xfe; x1c], "sizeof"); ([xfe; x1d], "refanytype");
    ([xfe; x1e], "readonly.")].

(** A mnemonic as the names of the interpreter spell it: a capital at the start of each part, and
    underscores for the dots ([conv.ovf.u4] is [Conv_Ovf_U4]). *)
Definition capital (c : ascii) : ascii :=
  let n := nat_of_ascii c in
  if andb (Nat.leb (nat_of_ascii "a") n) (Nat.leb n (nat_of_ascii "z")) then ascii_of_nat (n - 32) else c.
Fixpoint spelled_from (start : bool) (s : string) : string :=
  match s with
  | EmptyString => EmptyString
  | String c s' =>
      if Ascii.eqb c "." then String "_" (spelled_from true s')
      else String (if start then capital c else c) (spelled_from false s')
  end.
Definition spelled (mnemonic : string) : string := spelled_from true mnemonic.

(** The opcodes of /repo/clr_lite/src/vm/interpreter/opcodes.rs:4-231, in the order and with the
    numbers given there; written by tools/opcodes.py. *)
From Coq Require Import NArith String List.
Import ListNotations.
Open Scope N_scope.

(** 4-231: the enumeration. *)
Inductive opcode :=
| Nop | Break | Ldarg_0 | Ldarg_1 | Ldarg_2 | Ldarg_3 | Ldloc_0 | Ldloc_1 | Ldloc_2 | Ldloc_3
| Stloc_0 | Stloc_1 | Stloc_2 | Stloc_3 | Ldarg_S | Ldarga_S | Starg_S | Ldloc_S | Ldloca_S
| Stloc_S | Ldnull | Ldc_I4_M1 | Ldc_I4_0 | Ldc_I4_1 | Ldc_I4_2 | Ldc_I4_3 | Ldc_I4_4
| Ldc_I4_5 | Ldc_I4_6 | Ldc_I4_7 | Ldc_I4_8 | Ldc_I4_S | Ldc_I4 | Ldc_I8 | Ldc_R4 | Ldc_R8
| Dup | Pop | Jmp | Call | Calli | Ret | Br_S | Brfalse_S | Brtrue_S | Beq_S | Bge_S | Bgt_S
| Ble_S | Blt_S | Bne_Un_S | Bge_Un_S | Bgt_Un_S | Ble_Un_S | Blt_Un_S | Br | Brfalse
| Brtrue | Beq | Bge | Bgt | Ble | Blt | Bne_Un | Bge_Un | Bgt_Un | Ble_Un | Blt_Un | Switch
| Ldind_I1 | Ldind_U1 | Ldind_I2 | Ldind_U2 | Ldind_I4 | Ldind_U4 | Ldind_I8 | Ldind_I
| Ldind_R4 | Ldind_R8 | Ldind_Ref | Stind_Ref | Stind_I1 | Stind_I2 | Stind_I4 | Stind_I8
| Stind_R4 | Stind_R8 | Add | Sub | Mul | Div | Div_Un | Rem | Rem_Un | And | Or | Xor | Shl
| Shr | Shr_Un | Neg | Not | Conv_I1 | Conv_I2 | Conv_I4 | Conv_I8 | Conv_R4 | Conv_R8
| Conv_U4 | Conv_U8 | Callvirt | Cpobj | Ldobj | Ldstr | Newobj | Castclass | Isinst
| Conv_R_Un | Unbox | Throw | Ldfld | Ldflda | Stfld | Ldsfld | Ldsflda | Stsfld | Stobj
| Conv_Ovf_I1_Un | Conv_Ovf_I2_Un | Conv_Ovf_I4_Un | Conv_Ovf_I8_Un | Conv_Ovf_U1_Un
| Conv_Ovf_U2_Un | Conv_Ovf_U4_Un | Conv_Ovf_U8_Un | Conv_Ovf_I_Un | Conv_Ovf_U_Un | Box
| Newarr | Ldlen | Ldelema | Ldelem_I1 | Ldelem_U1 | Ldelem_I2 | Ldelem_U2 | Ldelem_I4
| Ldelem_U4 | Ldelem_I8 | Ldelem_I | Ldelem_R4 | Ldelem_R8 | Ldelem_Ref | Stelem_I
| Stelem_I1 | Stelem_I2 | Stelem_I4 | Stelem_I8 | Stelem_R4 | Stelem_R8 | Stelem_Ref | Ldelem
| Stelem | Unbox_Any | Conv_Ovf_I1 | Conv_Ovf_U1 | Conv_Ovf_I2 | Conv_Ovf_U2 | Conv_Ovf_I4
| Conv_Ovf_U4 | Conv_Ovf_I8 | Conv_Ovf_U8 | Refanyval | Ckfinite | Mkrefany | Ldtoken
| Conv_U2 | Conv_U1 | Conv_I | Conv_Ovf_I | Conv_Ovf_U | Add_Ovf | Add_Ovf_Un | Mul_Ovf
| Mul_Ovf_Un | Sub_Ovf | Sub_Ovf_Un | Endfinally | Leave | Leave_S | Stind_I | Conv_U
| Prefix7 | Prefix6 | Prefix5 | Prefix4 | Prefix3 | Prefix2 | Prefix1 | Prefixref | Arglist
| Ceq | Cgt | Cgt_Un | Clt | Clt_Un | Ldftn | Ldvirtftn | Ldarg | Ldarga | Starg | Ldloc
| Ldloca | Stloc | Localloc | Endfilter | Unaligned_ | Volatile_ | Tail_ | Initobj
| Constrained_ | Cpblk | Initblk | Rethrow | Sizeof | Refanytype | Readonly_.

(** The discriminants. *)
Definition opcode_code (o : opcode) : N :=
  match o with
  | Nop => 0x00
  | Break => 0x01
  | Ldarg_0 => 0x02
  | Ldarg_1 => 0x03
  | Ldarg_2 => 0x04
  | Ldarg_3 => 0x05
  | Ldloc_0 => 0x06
  | Ldloc_1 => 0x07
  | Ldloc_2 => 0x08
  | Ldloc_3 => 0x09
  | Stloc_0 => 0x0a
  | Stloc_1 => 0x0b
  | Stloc_2 => 0x0c
  | Stloc_3 => 0x0d
  | Ldarg_S => 0x0e
  | Ldarga_S => 0x0f
  | Starg_S => 0x10
  | Ldloc_S => 0x11
  | Ldloca_S => 0x12
  | Stloc_S => 0x13
  | Ldnull => 0x14
  | Ldc_I4_M1 => 0x15
  | Ldc_I4_0 => 0x16
  | Ldc_I4_1 => 0x17
  | Ldc_I4_2 => 0x18
  | Ldc_I4_3 => 0x19
  | Ldc_I4_4 => 0x1a
  | Ldc_I4_5 => 0x1b
  | Ldc_I4_6 => 0x1c
  | Ldc_I4_7 => 0x1d
  | Ldc_I4_8 => 0x1e
  | Ldc_I4_S => 0x1f
  | Ldc_I4 => 0x20
  | Ldc_I8 => 0x21
  | Ldc_R4 => 0x22
  | Ldc_R8 => 0x23
  | Dup => 0x25
  | Pop => 0x26
  | Jmp => 0x27
  | Call => 0x28
  | Calli => 0x29
  | Ret => 0x2a
  | Br_S => 0x2b
  | Brfalse_S => 0x2c
  | Brtrue_S => 0x2d
  | Beq_S => 0x2e
  | Bge_S => 0x2f
  | Bgt_S => 0x30
  | Ble_S => 0x31
  | Blt_S => 0x32
  | Bne_Un_S => 0x33
  | Bge_Un_S => 0x34
  | Bgt_Un_S => 0x35
  | Ble_Un_S => 0x36
  | Blt_Un_S => 0x37
  | Br => 0x38
  | Brfalse => 0x39
  | Brtrue => 0x3a
  | Beq => 0x3b
  | Bge => 0x3c
  | Bgt => 0x3d
  | Ble => 0x3e
  | Blt => 0x3f
  | Bne_Un => 0x40
  | Bge_Un => 0x41
  | Bgt_Un => 0x42
  | Ble_Un => 0x43
  | Blt_Un => 0x44
  | Switch => 0x45
  | Ldind_I1 => 0x46
  | Ldind_U1 => 0x47
  | Ldind_I2 => 0x48
  | Ldind_U2 => 0x49
  | Ldind_I4 => 0x4a
  | Ldind_U4 => 0x4b
  | Ldind_I8 => 0x4c
  | Ldind_I => 0x4d
  | Ldind_R4 => 0x4e
  | Ldind_R8 => 0x4f
  | Ldind_Ref => 0x50
  | Stind_Ref => 0x51
  | Stind_I1 => 0x52
  | Stind_I2 => 0x53
  | Stind_I4 => 0x54
  | Stind_I8 => 0x55
  | Stind_R4 => 0x56
  | Stind_R8 => 0x57
  | Add => 0x58
  | Sub => 0x59
  | Mul => 0x5a
  | Div => 0x5b
  | Div_Un => 0x5c
  | Rem => 0x5d
  | Rem_Un => 0x5e
  | And => 0x5f
  | Or => 0x60
  | Xor => 0x61
  | Shl => 0x62
  | Shr => 0x63
  | Shr_Un => 0x64
  | Neg => 0x65
  | Not => 0x66
  | Conv_I1 => 0x67
  | Conv_I2 => 0x68
  | Conv_I4 => 0x69
  | Conv_I8 => 0x6a
  | Conv_R4 => 0x6b
  | Conv_R8 => 0x6c
  | Conv_U4 => 0x6d
  | Conv_U8 => 0x6e
  | Callvirt => 0x6f
  | Cpobj => 0x70
  | Ldobj => 0x71
  | Ldstr => 0x72
  | Newobj => 0x73
  | Castclass => 0x74
  | Isinst => 0x75
  | Conv_R_Un => 0x76
  | Unbox => 0x79
  | Throw => 0x7a
  | Ldfld => 0x7b
  | Ldflda => 0x7c
  | Stfld => 0x7d
  | Ldsfld => 0x7e
  | Ldsflda => 0x7f
  | Stsfld => 0x80
  | Stobj => 0x81
  | Conv_Ovf_I1_Un => 0x82
  | Conv_Ovf_I2_Un => 0x83
  | Conv_Ovf_I4_Un => 0x84
  | Conv_Ovf_I8_Un => 0x85
  | Conv_Ovf_U1_Un => 0x86
  | Conv_Ovf_U2_Un => 0x87
  | Conv_Ovf_U4_Un => 0x88
  | Conv_Ovf_U8_Un => 0x89
  | Conv_Ovf_I_Un => 0x8a
  | Conv_Ovf_U_Un => 0x8b
  | Box => 0x8c
  | Newarr => 0x8d
  | Ldlen => 0x8e
  | Ldelema => 0x8f
  | Ldelem_I1 => 0x90
  | Ldelem_U1 => 0x91
  | Ldelem_I2 => 0x92
  | Ldelem_U2 => 0x93
  | Ldelem_I4 => 0x94
  | Ldelem_U4 => 0x95
  | Ldelem_I8 => 0x96
  | Ldelem_I => 0x97
  | Ldelem_R4 => 0x98
  | Ldelem_R8 => 0x99
  | Ldelem_Ref => 0x9a
  | Stelem_I => 0x9b
  | Stelem_I1 => 0x9c
  | Stelem_I2 => 0x9d
  | Stelem_I4 => 0x9e
  | Stelem_I8 => 0x9f
  | Stelem_R4 => 0xa0
  | Stelem_R8 => 0xa1
  | Stelem_Ref => 0xa2
  | Ldelem => 0xa3
  | Stelem => 0xa4
  | Unbox_Any => 0xa5
  | Conv_Ovf_I1 => 0xb3
  | Conv_Ovf_U1 => 0xb4
  | Conv_Ovf_I2 => 0xb5
  | Conv_Ovf_U2 => 0xb6
  | Conv_Ovf_I4 => 0xb7
  | Conv_Ovf_U4 => 0xb8
  | Conv_Ovf_I8 => 0xb9
  | Conv_Ovf_U8 => 0xba
  | Refanyval => 0xc2
  | Ckfinite => 0xc3
  | Mkrefany => 0xc6
  | Ldtoken => 0xd0
  | Conv_U2 => 0xd1
  | Conv_U1 => 0xd2
  | Conv_I => 0xd3
  | Conv_Ovf_I => 0xd4
  | Conv_Ovf_U => 0xd5
  | Add_Ovf => 0xd6
  | Add_Ovf_Un => 0xd7
  | Mul_Ovf => 0xd8
  | Mul_Ovf_Un => 0xd9
  | Sub_Ovf => 0xda
  | Sub_Ovf_Un => 0xdb
  | Endfinally => 0xdc
  | Leave => 0xdd
  | Leave_S => 0xde
  | Stind_I => 0xdf
  | Conv_U => 0xe0
  | Prefix7 => 0xf8
  | Prefix6 => 0xf9
  | Prefix5 => 0xfa
  | Prefix4 => 0xfb
  | Prefix3 => 0xfc
  | Prefix2 => 0xfd
  | Prefix1 => 0xfe
  | Prefixref => 0xff
  | Arglist => 0xfe00
  | Ceq => 0xfe01
  | Cgt => 0xfe02
  | Cgt_Un => 0xfe03
  | Clt => 0xfe04
  | Clt_Un => 0xfe05
  | Ldftn => 0xfe06
  | Ldvirtftn => 0xfe07
  | Ldarg => 0xfe09
  | Ldarga => 0xfe0a
  | Starg => 0xfe0b
  | Ldloc => 0xfe0c
  | Ldloca => 0xfe0d
  | Stloc => 0xfe0e
  | Localloc => 0xfe0f
  | Endfilter => 0xfe11
  | Unaligned_ => 0xfe12
  | Volatile_ => 0xfe13
  | Tail_ => 0xfe14
  | Initobj => 0xfe15
  | Constrained_ => 0xfe16
  | Cpblk => 0xfe17
  | Initblk => 0xfe18
  | Rethrow => 0xfe1a
  | Sizeof => 0xfe1c
  | Refanytype => 0xfe1d
  | Readonly_ => 0xfe1e
  end.

(** The derived [Debug] text. *)
Definition opcode_name (o : opcode) : string :=
  (match o with
  | Nop => "Nop"
  | Break => "Break"
  | Ldarg_0 => "Ldarg_0"
  | Ldarg_1 => "Ldarg_1"
  | Ldarg_2 => "Ldarg_2"
  | Ldarg_3 => "Ldarg_3"
  | Ldloc_0 => "Ldloc_0"
  | Ldloc_1 => "Ldloc_1"
  | Ldloc_2 => "Ldloc_2"
  | Ldloc_3 => "Ldloc_3"
  | Stloc_0 => "Stloc_0"
  | Stloc_1 => "Stloc_1"
  | Stloc_2 => "Stloc_2"
  | Stloc_3 => "Stloc_3"
  | Ldarg_S => "Ldarg_S"
  | Ldarga_S => "Ldarga_S"
  | Starg_S => "Starg_S"
  | Ldloc_S => "Ldloc_S"
  | Ldloca_S => "Ldloca_S"
  | Stloc_S => "Stloc_S"
  | Ldnull => "Ldnull"
  | Ldc_I4_M1 => "Ldc_I4_M1"
  | Ldc_I4_0 => "Ldc_I4_0"
  | Ldc_I4_1 => "Ldc_I4_1"
  | Ldc_I4_2 => "Ldc_I4_2"
  | Ldc_I4_3 => "Ldc_I4_3"
  | Ldc_I4_4 => "Ldc_I4_4"
  | Ldc_I4_5 => "Ldc_I4_5"
  | Ldc_I4_6 => "Ldc_I4_6"
  | Ldc_I4_7 => "Ldc_I4_7"
  | Ldc_I4_8 => "Ldc_I4_8"
  | Ldc_I4_S => "Ldc_I4_S"
  | Ldc_I4 => "Ldc_I4"
  | Ldc_I8 => "Ldc_I8"
  | Ldc_R4 => "Ldc_R4"
  | Ldc_R8 => "Ldc_R8"
  | Dup => "Dup"
  | Pop => "Pop"
  | Jmp => "Jmp"
  | Call => "Call"
  | Calli => "Calli"
  | Ret => "Ret"
  | Br_S => "Br_S"
  | Brfalse_S => "Brfalse_S"
  | Brtrue_S => "Brtrue_S"
  | Beq_S => "Beq_S"
  | Bge_S => "Bge_S"
  | Bgt_S => "Bgt_S"
  | Ble_S => "Ble_S"
  | Blt_S => "Blt_S"
  | Bne_Un_S => "Bne_Un_S"
  | Bge_Un_S => "Bge_Un_S"
  | Bgt_Un_S => "Bgt_Un_S"
  | Ble_Un_S => "Ble_Un_S"
  | Blt_Un_S => "Blt_Un_S"
  | Br => "Br"
  | Brfalse => "Brfalse"
  | Brtrue => "Brtrue"
  | Beq => "Beq"
  | Bge => "Bge"
  | Bgt => "Bgt"
  | Ble => "Ble"
  | Blt => "Blt"
  | Bne_Un => "Bne_Un"
  | Bge_Un => "Bge_Un"
  | Bgt_Un => "Bgt_Un"
  | Ble_Un => "Ble_Un"
  | Blt_Un => "Blt_Un"
  | Switch => "Switch"
  | Ldind_I1 => "Ldind_I1"
  | Ldind_U1 => "Ldind_U1"
  | Ldind_I2 => "Ldind_I2"
  | Ldind_U2 => "Ldind_U2"
  | Ldind_I4 => "Ldind_I4"
  | Ldind_U4 => "Ldind_U4"
  | Ldind_I8 => "Ldind_I8"
  | Ldind_I => "Ldind_I"
  | Ldind_R4 => "Ldind_R4"
  | Ldind_R8 => "Ldind_R8"
  | Ldind_Ref => "Ldind_Ref"
  | Stind_Ref => "Stind_Ref"
  | Stind_I1 => "Stind_I1"
  | Stind_I2 => "Stind_I2"
  | Stind_I4 => "Stind_I4"
  | Stind_I8 => "Stind_I8"
  | Stind_R4 => "Stind_R4"
  | Stind_R8 => "Stind_R8"
  | Add => "Add"
  | Sub => "Sub"
  | Mul => "Mul"
  | Div => "Div"
  | Div_Un => "Div_Un"
  | Rem => "Rem"
  | Rem_Un => "Rem_Un"
  | And => "And"
  | Or => "Or"
  | Xor => "Xor"
  | Shl => "Shl"
  | Shr => "Shr"
  | Shr_Un => "Shr_Un"
  | Neg => "Neg"
  | Not => "Not"
  | Conv_I1 => "Conv_I1"
  | Conv_I2 => "Conv_I2"
  | Conv_I4 => "Conv_I4"
  | Conv_I8 => "Conv_I8"
  | Conv_R4 => "Conv_R4"
  | Conv_R8 => "Conv_R8"
  | Conv_U4 => "Conv_U4"
  | Conv_U8 => "Conv_U8"
  | Callvirt => "Callvirt"
  | Cpobj => "Cpobj"
  | Ldobj => "Ldobj"
  | Ldstr => "Ldstr"
  | Newobj => "Newobj"
  | Castclass => "Castclass"
  | Isinst => "Isinst"
  | Conv_R_Un => "Conv_R_Un"
  | Unbox => "Unbox"
  | Throw => "Throw"
  | Ldfld => "Ldfld"
  | Ldflda => "Ldflda"
  | Stfld => "Stfld"
  | Ldsfld => "Ldsfld"
  | Ldsflda => "Ldsflda"
  | Stsfld => "Stsfld"
  | Stobj => "Stobj"
  | Conv_Ovf_I1_Un => "Conv_Ovf_I1_Un"
  | Conv_Ovf_I2_Un => "Conv_Ovf_I2_Un"
  | Conv_Ovf_I4_Un => "Conv_Ovf_I4_Un"
  | Conv_Ovf_I8_Un => "Conv_Ovf_I8_Un"
  | Conv_Ovf_U1_Un => "Conv_Ovf_U1_Un"
  | Conv_Ovf_U2_Un => "Conv_Ovf_U2_Un"
  | Conv_Ovf_U4_Un => "Conv_Ovf_U4_Un"
  | Conv_Ovf_U8_Un => "Conv_Ovf_U8_Un"
  | Conv_Ovf_I_Un => "Conv_Ovf_I_Un"
  | Conv_Ovf_U_Un => "Conv_Ovf_U_Un"
  | Box => "Box"
  | Newarr => "Newarr"
  | Ldlen => "Ldlen"
  | Ldelema => "Ldelema"
  | Ldelem_I1 => "Ldelem_I1"
  | Ldelem_U1 => "Ldelem_U1"
  | Ldelem_I2 => "Ldelem_I2"
  | Ldelem_U2 => "Ldelem_U2"
  | Ldelem_I4 => "Ldelem_I4"
  | Ldelem_U4 => "Ldelem_U4"
  | Ldelem_I8 => "Ldelem_I8"
  | Ldelem_I => "Ldelem_I"
  | Ldelem_R4 => "Ldelem_R4"
  | Ldelem_R8 => "Ldelem_R8"
  | Ldelem_Ref => "Ldelem_Ref"
  | Stelem_I => "Stelem_I"
  | Stelem_I1 => "Stelem_I1"
  | Stelem_I2 => "Stelem_I2"
  | Stelem_I4 => "Stelem_I4"
  | Stelem_I8 => "Stelem_I8"
  | Stelem_R4 => "Stelem_R4"
  | Stelem_R8 => "Stelem_R8"
  | Stelem_Ref => "Stelem_Ref"
  | Ldelem => "Ldelem"
  | Stelem => "Stelem"
  | Unbox_Any => "Unbox_Any"
  | Conv_Ovf_I1 => "Conv_Ovf_I1"
  | Conv_Ovf_U1 => "Conv_Ovf_U1"
  | Conv_Ovf_I2 => "Conv_Ovf_I2"
  | Conv_Ovf_U2 => "Conv_Ovf_U2"
  | Conv_Ovf_I4 => "Conv_Ovf_I4"
  | Conv_Ovf_U4 => "Conv_Ovf_U4"
  | Conv_Ovf_I8 => "Conv_Ovf_I8"
  | Conv_Ovf_U8 => "Conv_Ovf_U8"
  | Refanyval => "Refanyval"
  | Ckfinite => "Ckfinite"
  | Mkrefany => "Mkrefany"
  | Ldtoken => "Ldtoken"
  | Conv_U2 => "Conv_U2"
  | Conv_U1 => "Conv_U1"
  | Conv_I => "Conv_I"
  | Conv_Ovf_I => "Conv_Ovf_I"
  | Conv_Ovf_U => "Conv_Ovf_U"
  | Add_Ovf => "Add_Ovf"
  | Add_Ovf_Un => "Add_Ovf_Un"
  | Mul_Ovf => "Mul_Ovf"
  | Mul_Ovf_Un => "Mul_Ovf_Un"
  | Sub_Ovf => "Sub_Ovf"
  | Sub_Ovf_Un => "Sub_Ovf_Un"
  | Endfinally => "Endfinally"
  | Leave => "Leave"
  | Leave_S => "Leave_S"
  | Stind_I => "Stind_I"
  | Conv_U => "Conv_U"
  | Prefix7 => "Prefix7"
  | Prefix6 => "Prefix6"
  | Prefix5 => "Prefix5"
  | Prefix4 => "Prefix4"
  | Prefix3 => "Prefix3"
  | Prefix2 => "Prefix2"
  | Prefix1 => "Prefix1"
  | Prefixref => "Prefixref"
  | Arglist => "Arglist"
  | Ceq => "Ceq"
  | Cgt => "Cgt"
  | Cgt_Un => "Cgt_Un"
  | Clt => "Clt"
  | Clt_Un => "Clt_Un"
  | Ldftn => "Ldftn"
  | Ldvirtftn => "Ldvirtftn"
  | Ldarg => "Ldarg"
  | Ldarga => "Ldarga"
  | Starg => "Starg"
  | Ldloc => "Ldloc"
  | Ldloca => "Ldloca"
  | Stloc => "Stloc"
  | Localloc => "Localloc"
  | Endfilter => "Endfilter"
  | Unaligned_ => "Unaligned_"
  | Volatile_ => "Volatile_"
  | Tail_ => "Tail_"
  | Initobj => "Initobj"
  | Constrained_ => "Constrained_"
  | Cpblk => "Cpblk"
  | Initblk => "Initblk"
  | Rethrow => "Rethrow"
  | Sizeof => "Sizeof"
  | Refanytype => "Refanytype"
  | Readonly_ => "Readonly_"
  end)%string.

(** 3, the derived [FromPrimitive::from_u16]. *)
Definition from_u16 (c : N) : option opcode :=
  match c with
  | 0x00 => Some Nop
  | 0x01 => Some Break
  | 0x02 => Some Ldarg_0
  | 0x03 => Some Ldarg_1
  | 0x04 => Some Ldarg_2
  | 0x05 => Some Ldarg_3
  | 0x06 => Some Ldloc_0
  | 0x07 => Some Ldloc_1
  | 0x08 => Some Ldloc_2
  | 0x09 => Some Ldloc_3
  | 0x0a => Some Stloc_0
  | 0x0b => Some Stloc_1
  | 0x0c => Some Stloc_2
  | 0x0d => Some Stloc_3
  | 0x0e => Some Ldarg_S
  | 0x0f => Some Ldarga_S
  | 0x10 => Some Starg_S
  | 0x11 => Some Ldloc_S
  | 0x12 => Some Ldloca_S
  | 0x13 => Some Stloc_S
  | 0x14 => Some Ldnull
  | 0x15 => Some Ldc_I4_M1
  | 0x16 => Some Ldc_I4_0
  | 0x17 => Some Ldc_I4_1
  | 0x18 => Some Ldc_I4_2
  | 0x19 => Some Ldc_I4_3
  | 0x1a => Some Ldc_I4_4
  | 0x1b => Some Ldc_I4_5
  | 0x1c => Some Ldc_I4_6
  | 0x1d => Some Ldc_I4_7
  | 0x1e => Some Ldc_I4_8
  | 0x1f => Some Ldc_I4_S
  | 0x20 => Some Ldc_I4
  | 0x21 => Some Ldc_I8
  | 0x22 => Some Ldc_R4
  | 0x23 => Some Ldc_R8
  | 0x25 => Some Dup
  | 0x26 => Some Pop
  | 0x27 => Some Jmp
  | 0x28 => Some Call
  | 0x29 => Some Calli
  | 0x2a => Some Ret
  | 0x2b => Some Br_S
  | 0x2c => Some Brfalse_S
  | 0x2d => Some Brtrue_S
  | 0x2e => Some Beq_S
  | 0x2f => Some Bge_S
  | 0x30 => Some Bgt_S
  | 0x31 => Some Ble_S
  | 0x32 => Some Blt_S
  | 0x33 => Some Bne_Un_S
  | 0x34 => Some Bge_Un_S
  | 0x35 => Some Bgt_Un_S
  | 0x36 => Some Ble_Un_S
  | 0x37 => Some Blt_Un_S
  | 0x38 => Some Br
  | 0x39 => Some Brfalse
  | 0x3a => Some Brtrue
  | 0x3b => Some Beq
  | 0x3c => Some Bge
  | 0x3d => Some Bgt
  | 0x3e => Some Ble
  | 0x3f => Some Blt
  | 0x40 => Some Bne_Un
  | 0x41 => Some Bge_Un
  | 0x42 => Some Bgt_Un
  | 0x43 => Some Ble_Un
  | 0x44 => Some Blt_Un
  | 0x45 => Some Switch
  | 0x46 => Some Ldind_I1
  | 0x47 => Some Ldind_U1
  | 0x48 => Some Ldind_I2
  | 0x49 => Some Ldind_U2
  | 0x4a => Some Ldind_I4
  | 0x4b => Some Ldind_U4
  | 0x4c => Some Ldind_I8
  | 0x4d => Some Ldind_I
  | 0x4e => Some Ldind_R4
  | 0x4f => Some Ldind_R8
  | 0x50 => Some Ldind_Ref
  | 0x51 => Some Stind_Ref
  | 0x52 => Some Stind_I1
  | 0x53 => Some Stind_I2
  | 0x54 => Some Stind_I4
  | 0x55 => Some Stind_I8
  | 0x56 => Some Stind_R4
  | 0x57 => Some Stind_R8
  | 0x58 => Some Add
  | 0x59 => Some Sub
  | 0x5a => Some Mul
  | 0x5b => Some Div
  | 0x5c => Some Div_Un
  | 0x5d => Some Rem
  | 0x5e => Some Rem_Un
  | 0x5f => Some And
  | 0x60 => Some Or
  | 0x61 => Some Xor
  | 0x62 => Some Shl
  | 0x63 => Some Shr
  | 0x64 => Some Shr_Un
  | 0x65 => Some Neg
  | 0x66 => Some Not
  | 0x67 => Some Conv_I1
  | 0x68 => Some Conv_I2
  | 0x69 => Some Conv_I4
  | 0x6a => Some Conv_I8
  | 0x6b => Some Conv_R4
  | 0x6c => Some Conv_R8
  | 0x6d => Some Conv_U4
  | 0x6e => Some Conv_U8
  | 0x6f => Some Callvirt
  | 0x70 => Some Cpobj
  | 0x71 => Some Ldobj
  | 0x72 => Some Ldstr
  | 0x73 => Some Newobj
  | 0x74 => Some Castclass
  | 0x75 => Some Isinst
  | 0x76 => Some Conv_R_Un
  | 0x79 => Some Unbox
  | 0x7a => Some Throw
  | 0x7b => Some Ldfld
  | 0x7c => Some Ldflda
  | 0x7d => Some Stfld
  | 0x7e => Some Ldsfld
  | 0x7f => Some Ldsflda
  | 0x80 => Some Stsfld
  | 0x81 => Some Stobj
  | 0x82 => Some Conv_Ovf_I1_Un
  | 0x83 => Some Conv_Ovf_I2_Un
  | 0x84 => Some Conv_Ovf_I4_Un
  | 0x85 => Some Conv_Ovf_I8_Un
  | 0x86 => Some Conv_Ovf_U1_Un
  | 0x87 => Some Conv_Ovf_U2_Un
  | 0x88 => Some Conv_Ovf_U4_Un
  | 0x89 => Some Conv_Ovf_U8_Un
  | 0x8a => Some Conv_Ovf_I_Un
  | 0x8b => Some Conv_Ovf_U_Un
  | 0x8c => Some Box
  | 0x8d => Some Newarr
  | 0x8e => Some Ldlen
  | 0x8f => Some Ldelema
  | 0x90 => Some Ldelem_I1
  | 0x91 => Some Ldelem_U1
  | 0x92 => Some Ldelem_I2
  | 0x93 => Some Ldelem_U2
  | 0x94 => Some Ldelem_I4
  | 0x95 => Some Ldelem_U4
  | 0x96 => Some Ldelem_I8
  | 0x97 => Some Ldelem_I
  | 0x98 => Some Ldelem_R4
  | 0x99 => Some Ldelem_R8
  | 0x9a => Some Ldelem_Ref
  | 0x9b => Some Stelem_I
  | 0x9c => Some Stelem_I1
  | 0x9d => Some Stelem_I2
  | 0x9e => Some Stelem_I4
  | 0x9f => Some Stelem_I8
  | 0xa0 => Some Stelem_R4
  | 0xa1 => Some Stelem_R8
  | 0xa2 => Some Stelem_Ref
  | 0xa3 => Some Ldelem
  | 0xa4 => Some Stelem
  | 0xa5 => Some Unbox_Any
  | 0xb3 => Some Conv_Ovf_I1
  | 0xb4 => Some Conv_Ovf_U1
  | 0xb5 => Some Conv_Ovf_I2
  | 0xb6 => Some Conv_Ovf_U2
  | 0xb7 => Some Conv_Ovf_I4
  | 0xb8 => Some Conv_Ovf_U4
  | 0xb9 => Some Conv_Ovf_I8
  | 0xba => Some Conv_Ovf_U8
  | 0xc2 => Some Refanyval
  | 0xc3 => Some Ckfinite
  | 0xc6 => Some Mkrefany
  | 0xd0 => Some Ldtoken
  | 0xd1 => Some Conv_U2
  | 0xd2 => Some Conv_U1
  | 0xd3 => Some Conv_I
  | 0xd4 => Some Conv_Ovf_I
  | 0xd5 => Some Conv_Ovf_U
  | 0xd6 => Some Add_Ovf
  | 0xd7 => Some Add_Ovf_Un
  | 0xd8 => Some Mul_Ovf
  | 0xd9 => Some Mul_Ovf_Un
  | 0xda => Some Sub_Ovf
  | 0xdb => Some Sub_Ovf_Un
  | 0xdc => Some Endfinally
  | 0xdd => Some Leave
  | 0xde => Some Leave_S
  | 0xdf => Some Stind_I
  | 0xe0 => Some Conv_U
  | 0xf8 => Some Prefix7
  | 0xf9 => Some Prefix6
  | 0xfa => Some Prefix5
  | 0xfb => Some Prefix4
  | 0xfc => Some Prefix3
  | 0xfd => Some Prefix2
  | 0xfe => Some Prefix1
  | 0xff => Some Prefixref
  | 0xfe00 => Some Arglist
  | 0xfe01 => Some Ceq
  | 0xfe02 => Some Cgt
  | 0xfe03 => Some Cgt_Un
  | 0xfe04 => Some Clt
  | 0xfe05 => Some Clt_Un
  | 0xfe06 => Some Ldftn
  | 0xfe07 => Some Ldvirtftn
  | 0xfe09 => Some Ldarg
  | 0xfe0a => Some Ldarga
  | 0xfe0b => Some Starg
  | 0xfe0c => Some Ldloc
  | 0xfe0d => Some Ldloca
  | 0xfe0e => Some Stloc
  | 0xfe0f => Some Localloc
  | 0xfe11 => Some Endfilter
  | 0xfe12 => Some Unaligned_
  | 0xfe13 => Some Volatile_
  | 0xfe14 => Some Tail_
  | 0xfe15 => Some Initobj
  | 0xfe16 => Some Constrained_
  | 0xfe17 => Some Cpblk
  | 0xfe18 => Some Initblk
  | 0xfe1a => Some Rethrow
  | 0xfe1c => Some Sizeof
  | 0xfe1d => Some Refanytype
  | 0xfe1e => Some Readonly_
  | _ => None
  end.

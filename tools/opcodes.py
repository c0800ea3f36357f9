#!/usr/bin/env python3
"""Writes rocq/theories/Opcodes.v from the enumeration in interpreter/opcodes.rs."""
import re, sys
src = open(sys.argv[1]).read().split('pub enum Opcodes {')[1].split('}')[0]
ops = [(m.group(1), int(m.group(2), 16)) for m in re.finditer(r'^\s*(\w+) = (0x[0-9a-f]+),', src, re.M)]
out = ['''(** The opcodes of /repo/clr_lite/src/vm/interpreter/opcodes.rs:4-231, in the order and with the
    numbers given there; written by tools/opcodes.py. *)
From Coq Require Import NArith String List.
Import ListNotations.
Open Scope N_scope.

(** 4-231: the enumeration. *)
Inductive opcode :=''']
line = ''
for n, _ in ops:
    if len(line) + len(n) > 90: out.append(line); line = ''
    line += ('| ' if not line else ' | ') + n
out.append(line + '.')
out.append('''
(** The discriminants. *)
Definition opcode_code (o : opcode) : N :=
  match o with''')
for n, c in ops: out.append('  | %s => 0x%02x' % (n, c))
out.append('''  end.

(** The derived [Debug] text. *)
Definition opcode_name (o : opcode) : string :=
  (match o with''')
for n, c in ops: out.append('  | %s => "%s"' % (n, n))
out.append('''  end)%string.

(** 3, the derived [FromPrimitive::from_u16]. *)
Definition from_u16 (c : N) : option opcode :=
  match c with''')
for n, c in ops: out.append('  | 0x%02x => Some %s' % (c, n))
out.append('''  | _ => None
  end.
''')
open(sys.argv[2], 'w').write('\n'.join(out))

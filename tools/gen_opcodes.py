#!/usr/bin/env python3
# Generates rocq/theories/OpcodesTable.v from /repo/src/common/opcodes.h
import re
src=open('/repo/src/common/opcodes.h').read()
m=re.search(r'ops_dict\[224\] = \{(.*?)\};',src,re.S)
body=re.sub(r'/\*.*?\*/','',m.group(1))
vals=[int(x.strip(),0) for x in body.split(',') if x.strip()]
assert len(vals)==224
defs=dict((n,(p.strip(),b.strip())) for n,p,b in re.findall(r'#define\s+(\w+_OP)\s+\{(\d+),\s*(\w+)\}',src))
rows=re.findall(r'\{ (\w+),\s*(\w+),\s*(\w+),\s*(\w+) \},? // 0x',src)
assert len(rows)==26
out='''(** The tables of /repo/src/common/opcodes.h (generated by tools/gen_opcodes.py). *)
From Coq Require Import ZArith List.
From Verif Require Import SerialCompModel.
Import ListNotations.
Open Scope Z_scope.

(** common/842.h:121-123: widths of literal arguments. *)
Definition D2_BITS : Z := 16.
(** common/842.h:122. *)
Definition D4_BITS : Z := 32.
(** common/842.h:123. *)
Definition D8_BITS : Z := 64.

(** opcodes.h:6-231: ops_dict. *)
Definition ops_dict : list Z := [
%s ].

(** opcodes.h:235-287: templates, the table used when BRANCH_FREE is 1: for each
    of the four columns, the position in dataAndIndices and the width in bits. *)
Definition templates : list (list (Z * Z)) := [
%s ].
'''%(';\n'.join('  '+'; '.join('%d'%v for v in vals[i:i+16]) for i in range(0,224,16)),
';\n'.join('  ['+'; '.join('(%s, %s)'%defs[c] for c in r)+']' for r in rows))
open('/verif/rocq/theories/OpcodesTable.v','w').write(out)

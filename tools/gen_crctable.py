#!/usr/bin/env python3
# Generates rocq/theories/CrcTable.v from /repo/src/common/crc32table.h
import re
src=open('/repo/src/common/crc32table.h').read()
body=src[src.index('static const'):]
rows=[r for r in re.findall(r'\{([^{}]*)\}',body) if 'tobe' in r]
assert len(rows)==8
out=['''(** Literal transcription (generated by tools/gen_crctable.py) of the arguments
    of [tobe(...)] in /repo/src/common/crc32table.h:10-530. *)
From Coq Require Import ZArith List.
Import ListNotations.
Open Scope Z_scope.

(** common/crc32table.h:10-530: the arguments of tobe. *)
Definition crc32table_literal : list (list Z) := [''']
for k,r in enumerate(rows):
    v=re.findall(r'tobe\((0x[0-9a-f]+)L\)',r)
    assert len(v)==256
    lines=['  '+'; '.join(v[i:i+8]) for i in range(0,256,8)]
    out.append(' [\n'+';\n'.join(lines)+'\n ]'+(';' if k<7 else ''))
out.append('].')
open('/verif/rocq/theories/CrcTable.v','w').write('\n'.join(out)+'\n')

#!/usr/bin/env python3
# Generates rocq/theories/TestPatterns.v from /repo/test/test_patterns.c
import re
src=open('/repo/test/test_patterns.c',encoding='utf-8').read()
src=re.sub(r'//[^\n]*','',src)
out=['''(** The literal test vectors of /repo/test/test_patterns.c (generated by
    tools/gen_patterns.py), used only to check that the model of the code is
    faithful on them. *)
From Coq Require Import ZArith List.
Import ListNotations.
Open Scope Z_scope.
''']
for m in re.finditer(r'uint8_t (PATTERN_\w+)\[\] = \{(.*?)\};',src,re.S):
    name,body=m.groups()
    if '"' in body:
        b=b''.join(s.encode('utf-8') for s in re.findall(r'"([^"]*)"',body))
        # string literal: trailing NUL
        b=list(b)+[0]
    else:
        b=[int(x,16) for x in re.findall(r'0x[0-9a-f]+',body)]
    print(name,len(b))
    lines=['  '+'; '.join('%d'%x for x in b[i:i+20]) for i in range(0,len(b),20)]
    out.append('Definition %s : list Z := [\n%s ].\n'%(name,';\n'.join(lines)))
open('/verif/rocq/theories/TestPatterns.v','w').write('\n'.join(out))

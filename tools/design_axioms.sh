#!/bin/bash
# Refresh the axiom list of DESIGN.md (section 6) from a finished build.
cd "$(dirname "$0")/.." && python3 tools/axioms.py > /tmp/ax.md && python3 - <<'P'
s=open('DESIGN.md').read().split('<!-- axioms -->\n')
import re
rest=s[1].split('\n')
i=0
while i<len(rest) and (rest[i].startswith('* ') or rest[i].startswith('  C')): i+=1
open('DESIGN.md','w').write(s[0]+'<!-- axioms -->\n'+open('/tmp/ax.md').read()+'\n'.join(rest[i:]))
P

#!/usr/bin/env python3
"""Regenerate MANIFEST.json from the theorems in rocq/theories/T*.v.

Theorems are named Cnn_...; a theorem whose name ends in _partial makes the
claim partial.  Notes are in tools/notes.json.
"""
import collections
import glob
import json
import os
import re

root = os.path.dirname(os.path.dirname(os.path.abspath(__file__)))
thms = collections.defaultdict(list)
for f in sorted(glob.glob(root + '/rocq/theories/T*.v')):
    for m in re.finditer(r'^Theorem\s+(C(\d\d+)_\w+)', open(f).read(), re.M):
        thms['C' + m.group(2)].append(m.group(1))
notes = json.load(open(root + '/tools/notes.json'))
claims = []
for line in open(root + '/properties.jsonl'):
    pid = json.loads(line)['id']
    if pid in thms:
        part = any(t.endswith('_partial') for t in thms[pid])
        part = part or notes.get(pid, '').startswith('PARTIAL')
        claims.append({'property': pid, 'status': 'partial' if part else 'proved',
                       'theorems': thms[pid], 'note': notes.get(pid, '')})
    else:
        claims.append({'property': pid, 'status': 'partial', 'theorems': [],
                       'note': notes.get(pid, 'no theorem yet')})
with open(root + '/MANIFEST.json', 'w') as fp:
    json.dump({'claims': [c for c in claims if c['theorems']]}, fp, indent=1)
    fp.write('\n')
missing = [c['property'] for c in claims if not c['theorems']]
print(len(claims) - len(missing), 'claims,', sum(map(len, thms.values())), 'theorems; missing', missing)

#!/usr/bin/env python3
"""Print, for every theorem of MANIFEST.json, the axioms Print Assumptions lists,
grouped by axiom set (markdown).  Needs a finished build in /verif/rocq."""
import json, os, re, subprocess, collections
root = os.path.join(os.path.dirname(os.path.abspath(__file__)), '..')
th = os.path.join(root, 'rocq', 'theories')
names = [t for c in json.load(open(os.path.join(root, 'MANIFEST.json')))['claims'] for t in c['theorems']]
mods = sorted(f[:-2] for f in os.listdir(th) if f.startswith('T') and f.endswith('.v'))
src = ''.join('From Verif Require %s.\n' % m for m in mods)
where = {}
for m in mods:
    for n in re.findall(r'^Theorem (\w+)', open(os.path.join(th, m + '.v')).read(), re.M):
        where[n] = m
for n in names:
    src += 'Definition mark_%s := tt. Print mark_%s. Print Assumptions %s.%s.\n' % (n, n, where[n], n)
open('/tmp/axq.v', 'w').write(src)
out = subprocess.run(['coqc', '-R', th, 'Verif', '/tmp/axq.v'], capture_output=True, text=True)
assert out.returncode == 0, out.stderr
groups = collections.defaultdict(list)
for part in out.stdout.split('mark_')[1:]:
    name = part.split()[0]
    ax = frozenset(re.findall(r'^([\w.]+)\s*$|^([\w.]+) :', part.split('\n', 2)[2], re.M) and
                   [a or b for a, b in re.findall(r'^([\w.]+)\s*$|^([\w.]+) :', part.split('\n', 2)[2], re.M)])
    groups[ax].append(name)
for ax, ns in sorted(groups.items(), key=lambda g: len(g[0])):
    print('* ' + (', '.join('`%s`' % a for a in sorted(ax)) or 'none (closed under the global context)') + ':')
    print('  ' + ', '.join(ns) + '.')

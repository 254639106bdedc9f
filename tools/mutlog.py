#!/usr/bin/env python3
"""Append the results of mutants.py to seeded/LOG.jsonl: mutlog.py RESULTS.jsonl
[ROUND].  "proofs_broken" are the lemmas whose own proof no longer checks;
"theorems_failed" the property theorems that rest on one of them."""
import json, os, sys
LOG = os.path.join(os.path.dirname(os.path.abspath(__file__)), '..', 'seeded', 'LOG.jsonl')
done = set()
if os.path.exists(LOG):
    for l in open(LOG):
        x = json.loads(l)
        done.add((x['definition'], x['edit']))
tight = json.load(open(sys.argv[2])) if len(sys.argv) > 2 else {}
with open(LOG, 'a') as out:
    for l in open(sys.argv[1]):
        x = json.loads(l)
        key = (x['file'] + ':' + x['definition'], x['edit'])
        if x.get('error') or key in done:
            continue
        t = tight.get(x['edit'], {})
        out.write(json.dumps({'definition': key[0], 'edit': x['edit'], 'claim_broken': x['claim'], 'properties': x['break'],
                              'theorems_failed': x['failed'], 'proofs_broken': x['broken'][:12], 'survived': x.get('missed') or [],
                              'theorems_tightened': t.get('tightened', []), **({'note': t['note']} if 'note' in t else {})}) + '\n')

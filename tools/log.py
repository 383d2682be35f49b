#!/usr/bin/env python3
"""Write seeded/LOG.jsonl from the results of mutate.py and seeded/tightened.json.

usage: log.py results ...     (a later result for the same mutant replaces an earlier one, except
that theorems listed in tightened.json stay recorded)
"""
import json, os, sys
root = os.path.dirname(os.path.dirname(os.path.abspath(__file__)))
sys.path.insert(0, os.path.join(root, 'seeded'))
from mutants import MUTANTS
res = {}
for f in sys.argv[1:]:
    for l in open(f):
        r = json.loads(l); res[r['id']] = r
tight = json.load(open(os.path.join(root, 'seeded', 'tightened.json')))
with open(os.path.join(root, 'seeded', 'LOG.jsonl'), 'w') as out:
    for m in MUTANTS:
        r = res.get(m['id'])
        if r is None: continue
        out.write(json.dumps({'definition': m['definition'], 'edit': '%s: %s -> %s' % (m['file'], m['old'], m['new']),
            'claim': '%s: %s' % (', '.join(m['claims']), m['why']), 'failed': r['failed'],
            'tightened': tight.get(m['id'], [])}, ensure_ascii=False) + '\n')

#!/usr/bin/env python3
"""append mutation results to seeded/LOG.jsonl: log.py results.jsonl [tightened.json]"""
import json, sys, os
here = os.path.dirname(os.path.abspath(__file__))
T = json.load(open(sys.argv[2])) if len(sys.argv) > 2 else {}
with open(os.path.join(here, '..', 'seeded', 'LOG.jsonl'), 'a') as f:
    for l in open(sys.argv[1]):
        d = json.loads(l); k = d['definition'] + '|' + d['edit']
        t = T.get(k, {})
        d = dict(definition=d['definition'], edit=d['edit'], claim_broken=t.get('claim', d['claim']),
                 result=d['result'], theorems_failed=d['theorems_failed'], theorems_tightened=t.get('tightened', []))
        if 'after' in t: d['after_tightening'] = t['after']
        f.write(json.dumps(d) + '\n')

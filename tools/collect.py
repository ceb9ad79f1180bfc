#!/usr/bin/env python3
# collect.py OUT...: turn results of the mutation runs into lines of seeded/LOG.jsonl
import sys,json
seen=set()
try:
    for l in open('/verif/seeded/LOG.jsonl'): seen.add(json.loads(l)['id'])
except FileNotFoundError: pass
with open('/verif/seeded/LOG.jsonl','a') as f:
    for fn in sys.argv[1:]:
        for l in open(fn):
            r=json.loads(l)
            if r['id'] in seen: continue
            seen.add(r['id'])
            f.write(json.dumps(dict(id=r['id'],definition=r['definition'],edit=r['edit'],claim_broken=r['claim'],
              theorems_failed=r['failed'],theorems_tightened=r.get('tightened',[]),note=r.get('note','')))+'\n')

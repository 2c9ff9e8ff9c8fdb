"""Append mutation results (JSON lines) to seeded/LOG.jsonl, skipping repeats."""
import json
import os
import sys
log = os.path.join(os.path.dirname(__file__), '..', 'seeded', 'LOG.jsonl')
seen = set()
if os.path.exists(log):
    for l in open(log):
        if l.strip():
            r = json.loads(l)
            seen.add((r['definition'], r['edit']))
n = 0
with open(log, 'a') as out:
    for l in open(sys.argv[1]):
        r = json.loads(l)
        k = (r['definition'], r['edit'])
        if k in seen:
            continue
        seen.add(k)
        out.write(json.dumps(r) + '\n')
        n += 1
print(n, 'added')

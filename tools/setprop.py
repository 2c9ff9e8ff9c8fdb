#!/usr/bin/env python3
"""Edit properties.jsonl: setprop.py < edits.json, where edits.json is a list of
objects with an id; known ids are updated, unknown ones appended."""
import json, os, sys
root = os.path.dirname(os.path.dirname(os.path.abspath(__file__)))
p = root + '/properties.jsonl'
props = [json.loads(l) for l in open(p) if l.strip()]
byid = {o['id']: o for o in props}
for e in json.load(sys.stdin):
    if e['id'] in byid:
        byid[e['id']].update(e)
    else:
        props.append(e)
        byid[e['id']] = e
with open(p, 'w') as f:
    for o in props:
        f.write(json.dumps(o) + '\n')

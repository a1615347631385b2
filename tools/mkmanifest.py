#!/usr/bin/env python3
"""Writes MANIFEST.json: status and notes per property; theorem names are collected from theories/Properties*.v
(every Theorem whose name starts with the property id)."""
import json, re, glob, os
root = os.path.dirname(os.path.dirname(os.path.abspath(__file__)))
names = {}
for f in sorted(glob.glob(root + '/rocq/theories/Properties*.v')):
    for m in re.finditer(r'^Theorem\s+((C\d\d+)_\w+)', open(f).read(), re.M):
        names.setdefault(m.group(2), []).append(m.group(1))
notes = json.load(open(root + '/tools/manifest_notes.json'))
claims = []
for l in open(root + '/properties.jsonl'):
    p = json.loads(l)['id']
    if p in notes:
        st, note = notes[p]
        if st != 'not_applicable' and p not in names:
            print('no theorem for', p); continue
        claims.append({"property": p, "status": st, "theorems": names.get(p, []), "note": note})
    elif p in names:
        print('no note for', p)
json.dump({"claims": claims}, open(root + '/MANIFEST.json', 'w'), indent=1)
print(len(claims), 'claims', sum(len(c['theorems']) for c in claims), 'theorems')

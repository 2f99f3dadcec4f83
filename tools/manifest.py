#!/usr/bin/env python3
"""Write MANIFEST.json from the theorem names in rocq/theories/*Props*.v and the
notes in tools/notes.json."""
import glob, json, os, re
root = os.path.dirname(os.path.dirname(os.path.abspath(__file__)))
thms = {}
for f in sorted(glob.glob(root + '/rocq/theories/*Props*.v')):
    for m in re.finditer(r'^Theorem\s+((C\d+)_\w+)', open(f).read(), re.M):
        thms.setdefault(m.group(2), []).append(m.group(1))
notes = json.load(open(root + '/tools/notes.json'))
claims = []
for line in open(root + '/properties.jsonl'):
    p = json.loads(line)['id']
    names = thms.get(p, [])
    if not names:
        if p in notes and notes[p].startswith('NA:'):
            claims.append({"property": p, "status": "not_applicable", "theorems": [], "note": notes[p][3:].strip()})
        else:
            print('missing', p)
        continue
    partial = any(n.endswith('_partial') or n.endswith('_refuted') for n in names)
    claims.append({"property": p, "status": "partial" if partial else "proved",
                   "theorems": names, "note": notes.get(p, "")})
json.dump({"claims": claims}, open(root + '/MANIFEST.json', 'w'), indent=1)
print(len(claims), 'claims')

#!/usr/bin/env python3
"""Write MANIFEST.json from the theorem names in rocq/theories/Props*.v and tools/notes.json.

A theorem C07_xyz belongs to property C07.  A property is partial if one of its theorems is named
..._partial or ..._refuted, or if notes.json says so."""
import glob, json, os, re
root = os.path.dirname(os.path.dirname(os.path.abspath(__file__)))
thms = {}
for f in sorted(glob.glob(root + '/rocq/theories/Props*.v')):
    for m in re.finditer(r'^Theorem (C\d\d)(_\w+)', open(f).read(), re.M):
        thms.setdefault(m.group(1), []).append(m.group(1) + m.group(2))
notes = json.load(open(root + '/tools/notes.json'))
claims = []
ids = [json.loads(l)['id'] for l in open(root + '/properties.jsonl')]
for i in ids:
    n = notes.get(i, {})
    ts = thms.get(i, [])
    if not ts and 'status' not in n:
        continue
    st = n.get('status') or ('partial' if any(re.search(r'_(partial|refuted)$', t) for t in ts) else 'proved')
    claims.append({'property': i, 'status': st, 'theorems': ts, 'note': n.get('note', '')})
json.dump({'claims': claims}, open(root + '/MANIFEST.json', 'w'), indent=1)
print(len(claims), 'claims;', 'without claim:', [i for i in ids if i not in [c['property'] for c in claims]])

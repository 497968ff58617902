#!/usr/bin/env python3
"""Write MANIFEST.json from the theorems of rocq/theories/P*.v and tools/notes.json.

A property is "proved" if it has theorems and none of them is _partial or _refuted,
"partial" otherwise; notes.json may override the status and gives the note."""
import re, os, glob, json
HERE = os.path.join(os.path.dirname(os.path.abspath(__file__)), '..')
thms = {}
for f in sorted(glob.glob(os.path.join(HERE, 'rocq/theories/P*.v'))):
    for t in re.findall(r'^Theorem (C\d+_\w+)', open(f).read(), re.M):
        thms.setdefault(t.split('_')[0], []).append(t)
notes = json.load(open(os.path.join(HERE, 'tools/notes.json')))
claims = []
for line in open(os.path.join(HERE, 'properties.jsonl')):
    pid = json.loads(line)['id']
    ts = thms.get(pid, [])
    n = notes.get(pid, {})
    st = n.get('status')
    if st is None:
        st = 'partial' if (not ts or any(t.endswith('_partial') or t.endswith('_refuted') for t in ts)) else 'proved'
    claims.append({'property': pid, 'status': st, 'theorems': ts, 'note': n.get('note', '' if ts else 'not proved yet')})
json.dump({'claims': claims}, open(os.path.join(HERE, 'MANIFEST.json'), 'w'), indent=1)
for c in claims:
    print(c['property'], c['status'], ' '.join(c['theorems']))

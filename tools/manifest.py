#!/usr/bin/env python3
"""Writes MANIFEST.json: every theorem named Cxx_* in rocq/theories is listed under its property."""
import re, json, glob, os
here = os.path.dirname(os.path.dirname(os.path.abspath(__file__)))
thms = {}
for f in sorted(glob.glob(here + '/rocq/theories/*.v')):
    for m in re.finditer(r'^(?:Theorem|Corollary) (C(\d\d)_\w+)', open(f).read(), re.M):
        thms.setdefault('C' + m.group(2), []).append(m.group(1))
notes = json.load(open(here + '/tools/notes.json'))
claims = []
for line in open(here + '/properties.jsonl'):
    p = json.loads(line)['id']
    n = notes.get(p, {})
    t = thms.get(p, [])
    st = n.get('status') or ('partial' if (not t or any(x.endswith('_partial') for x in t)) else 'proved')
    claims.append({'property': p, 'status': st, 'theorems': t, 'note': n.get('note', '')})
json.dump({'claims': claims}, open(here + '/MANIFEST.json', 'w'), indent=1)
print(len(claims), {s: sum(c['status'] == s for c in claims) for s in ('proved', 'partial', 'not_applicable')},
      'without theorems:', [c['property'] for c in claims if not c['theorems']])

#!/usr/bin/env python3
"""Build MANIFEST.json: the theorems of rocq/theories/Props named Cxx_..., with
the status and note of each property taken from tools/status.json."""
import json, glob, re, os
root = os.path.dirname(os.path.dirname(os.path.abspath(__file__)))
ths = {}
for f in sorted(glob.glob(root + '/rocq/theories/Props/*.v')):
    for m in re.finditer(r'^ *Theorem\s+((C\d+)_\w+)', open(f).read(), re.M):
        ths.setdefault(m.group(2), []).append(m.group(1))
st = json.load(open(root + '/tools/status.json'))
claims = []
for l in open(root + '/properties.jsonl'):
    p = json.loads(l)['id']
    s = st.get(p, {})
    t = ths.get(p, [])
    status = s.get('status', 'partial')
    note = s.get('note', 'Not modelled yet.' if not t else '')
    claims.append({'property': p, 'status': status, 'theorems': t, 'note': note})
json.dump({'claims': claims}, open(root + '/MANIFEST.json', 'w'), indent=1)
print({s: sum(c['status'] == s for c in claims) for s in ('proved', 'partial', 'not_applicable')},
      [c['property'] for c in claims if not c['theorems']])

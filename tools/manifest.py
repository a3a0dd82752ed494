#!/usr/bin/env python3
"""Regenerate MANIFEST.json from the *Props.v files: every theorem named Cnn_* is
listed under property Cnn.  A property with a *_refuted or *_partial theorem is
'partial' unless NOTES overrides its status."""
import glob, json, os, re, sys
root = os.path.dirname(os.path.dirname(os.path.abspath(__file__)))
notes = json.load(open(os.path.join(root, 'tools', 'notes.json')))
thms = {}
for f in sorted(glob.glob(os.path.join(root, 'rocq/theories/*Props.v'))):
    for m in re.finditer(r'^Theorem\s+((C\d+)_\w+)', open(f).read(), re.M):
        thms.setdefault(m.group(2), []).append(m.group(1))
props = [json.loads(l) for l in open(os.path.join(root, 'properties.jsonl')) if l.strip()]
claims = []
for p in props:
    i = p['id']
    t = thms.get(i, [])
    n = notes.get(i, {})
    if isinstance(n, str):
        n = {'note': n}
    if not t:
        st = n.get('status', 'not_applicable')
    else:
        st = n.get('status') or ('partial' if any(x.endswith(('_refuted', '_partial')) for x in t) else 'proved')
    claims.append({'property': i, 'status': st, 'theorems': t, 'note': n.get('note', '')})
json.dump({'claims': claims}, open(os.path.join(root, 'MANIFEST.json'), 'w'), indent=1)
print({s: sum(c['status'] == s for c in claims) for s in ('proved', 'partial', 'not_applicable')})
print('no theorem:', [c['property'] for c in claims if not c['theorems']])
unk = set(thms) - {p['id'] for p in props}
if unk: print('UNKNOWN ids', unk)

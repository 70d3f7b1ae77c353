#!/usr/bin/env python3
"""Regenerate MANIFEST.json from tools/claims.json and the theorem names in P_*.v."""
import json, re, glob, os
root = os.path.dirname(os.path.dirname(os.path.abspath(__file__)))
props = [json.loads(l)['id'] for l in open(root + '/properties.jsonl') if l.strip()]
claims = json.load(open(root + '/tools/claims.json'))
th = {}
for f in sorted(glob.glob(root + '/rocq/theories/P_*.v')):
    for m in re.finditer(r'^(?:Theorem|Corollary)\s+((C\d\d)_\w+)', open(f).read(), re.M):
        th.setdefault(m.group(2), []).append(m.group(1))
out = []
for p in props:
    c = claims.get(p)
    if c is None:
        if p in th: print('no claim entry for', p)
        continue
    out.append({"property": p, "status": c["status"], "theorems": th.get(p, []), "note": c["note"]})
    if c["status"] != "not_applicable" and p not in th: print('no theorems for', p)
for p in props:
    if p not in claims: print('missing', p)
json.dump({"claims": out}, open(root + '/MANIFEST.json', 'w'), indent=1)
print(len(out), 'claims,', sum(len(c['theorems']) for c in out), 'theorems')

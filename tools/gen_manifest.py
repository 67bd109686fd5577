#!/usr/bin/env python3
"""Regenerates MANIFEST.json: theorems are every `Theorem Cnn_...` found in rocq/theories/Prop_*.v;
status/notes come from the table below."""
import json, re, glob, os
here = os.path.dirname(os.path.abspath(__file__)); root = os.path.dirname(here)
notes = json.load(open(os.path.join(here, 'notes.json')))
thms = {}
listed = open(os.path.join(root, 'rocq', '_CoqProject')).read()
for f in sorted(glob.glob(os.path.join(root, 'rocq/theories/Prop_*.v'))):
    if os.path.basename(f) not in listed: continue
    for m in re.finditer(r'^Theorem (C(\d+)_\w+)', open(f).read(), re.M):
        thms.setdefault('C' + m.group(2), []).append(m.group(1))
claims = []
for line in open(os.path.join(root, 'properties.jsonl')):
    p = json.loads(line)['id']
    t = thms.get(p, [])
    n = notes.get(p, {})
    if not t:
        claims.append({"property": p, "status": "partial", "theorems": [], "note": n.get("note", "") or "not yet proved"})
        continue
    status = n.get("status") or ("partial" if any(x.endswith('_partial') or x.endswith('_refuted') for x in t) else "proved")
    claims.append({"property": p, "status": status, "theorems": t, "note": n.get("note", "")})
json.dump({"claims": claims}, open(os.path.join(root, 'MANIFEST.json'), 'w'), indent=1)
print({s: sum(c['status'] == s for c in claims) for s in ('proved', 'partial', 'not_applicable')}, [c['property'] for c in claims if not c['theorems']])

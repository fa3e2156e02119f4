#!/usr/bin/env python3
"""Writes /verif/MANIFEST.json and rocq/_CoqProject from the tables below."""
import json, re, os, glob
here = os.path.dirname(os.path.abspath(__file__))
root = os.path.dirname(here)
CLAIMS = json.load(open(os.path.join(here, 'claims.json')))
props = [json.loads(l)['id'] for l in open(os.path.join(root, 'properties.jsonl'))]
names = set()
for f in glob.glob(os.path.join(root, 'rocq/theories/*.v')):
    for m in re.finditer(r'^\s*(?:Theorem|Lemma|Corollary|Example)\s+([A-Za-z0-9_\']+)', open(f).read(), re.M):
        names.add(m.group(1))
out = []
for p in props:
    c = CLAIMS.get(p)
    if c is None:
        out.append({"property": p, "status": "partial", "theorems": [], "note": "not yet proved"})
        continue
    for t in c['theorems']:
        assert t in names, (p, t)
    out.append({"property": p, "status": c['status'], "theorems": c['theorems'], "note": c.get('note', '')})
json.dump({"claims": out}, open(os.path.join(root, 'MANIFEST.json'), 'w'), indent=1, ensure_ascii=False)
print(len([c for c in out if c['status'] == 'proved']), 'proved,', len([c for c in out if c['status'] == 'partial' and c['theorems']]), 'partial,', len([c for c in out if not c['theorems']]), 'open')

#!/usr/bin/env python3
"""Regenerate MANIFEST.json from manifest_src.json and check that every theorem named exists."""
import json, re, glob, sys
src = json.load(open('/verif/manifest_src.json'))
thms = set()
for f in glob.glob('/verif/rocq/theories/*_Props.v'):
    thms |= set(re.findall(r'^\s*(?:Theorem|Lemma|Corollary)\s+(\w+)', open(f).read(), re.M))
props = [json.loads(l)['id'] for l in open('/verif/properties.jsonl') if l.strip()]
claims = []
for pid in props:
    e = src.get(pid)
    if not e: continue
    named = e.get('theorems') or sorted(t for t in thms if t.startswith(pid + '_'))
    for t in named:
        if t not in thms: sys.exit(f'{pid}: no theorem {t}')
    claims.append({'property': pid, 'status': e['status'], 'theorems': named, 'note': e['note']})
json.dump({'claims': claims}, open('/verif/MANIFEST.json', 'w'), indent=1)
missing = [t for t in thms if not any(t in c['theorems'] for c in claims)]
print(len(claims), 'claims;', len(thms), 'theorems; unclaimed:', missing)

#!/usr/bin/env python3
"""Regenerate MANIFEST.json from tools/claims.txt; check that every theorem exists.

claims.txt: one claim per line,  ID | status | theorem names | note"""
import json, re, glob, sys
thms = set()
for f in glob.glob('/verif/rocq/theories/*.v'):
    thms |= set(re.findall(r'^\s*(?:Theorem|Lemma|Corollary)\s+([A-Za-z0-9_\']+)', open(f).read(), re.M))
claims, bad = [], 0
for ln in open('/verif/tools/claims.txt'):
    ln = ln.strip()
    if not ln or ln.startswith('#'):
        continue
    pid, st, th, note = [x.strip() for x in ln.split('|', 3)]
    th = th.split()
    for t in th:
        if t not in thms:
            print('missing theorem', t); bad = 1
    claims.append({"property": pid, "status": st, "theorems": th, "note": note})
ids = [json.loads(l)['id'] for l in open('/verif/properties.jsonl')]
print('claims', len(claims), 'without claim:', [i for i in ids if i not in {c['property'] for c in claims}])
json.dump({"claims": claims}, open('/verif/MANIFEST.json', 'w'), indent=1)
open('/verif/MANIFEST.json', 'a').write('\n')
sys.exit(bad)

#!/usr/bin/env python3
"""Regenerate MANIFEST.json from the theorem names in rocq/theories/*Props.v and tools/status.txt.
status.txt: one line per property: ID|status|note"""
import re, json, glob, os
root = os.path.dirname(os.path.dirname(os.path.abspath(__file__)))
th = {}
for f in sorted(glob.glob(root + '/rocq/theories/*Props.v')):
    for m in re.finditer(r'^Theorem\s+((C\d+)_\w+)', open(f).read(), re.M):
        th.setdefault(m.group(2), []).append(m.group(1))
claims = []
seen = set()
for l in open(root + '/tools/status.txt'):
    l = l.strip()
    if not l or l.startswith('#'): continue
    i, s, n = l.split('|', 2)
    seen.add(i)
    if s != 'not_applicable' and i not in th: print('no theorem for', i)
    claims.append({"property": i, "status": s, "theorems": th.get(i, []), "note": n})
for i in th:
    if i not in seen: print('no status for', i)
unc = []
ids = [json.loads(l)['id'] for l in open(root + '/properties.jsonl')]
for i in ids:
    if i not in seen: unc.append(i)
for i in seen:
    if i not in ids: print('unknown', i)
claims.sort(key=lambda c: int(c['property'][1:]))
open(root + '/MANIFEST.json', 'w').write('{"claims": [\n' + ',\n'.join(json.dumps(c) for c in claims) + '\n]}\n')
print('uncovered:', *unc)

#!/usr/bin/env python3
"""Generates /verif/MANIFEST.json from manifest_src.py; checks that every theorem
named there exists in a Properties_*.v file and that every listed property has an entry."""
import json, os, re, glob
here = os.path.dirname(os.path.abspath(__file__))
C = []
def c(prop, status, theorems, note=''):
    C.append(dict(property=prop, status=status, theorems=theorems, note=note))
exec(open(os.path.join(here, 'manifest_src.py')).read())
names = set()
for f in glob.glob(os.path.join(here, '..', 'rocq', 'theories', 'Properties_*.v')):
    names |= set(re.findall(r'^\s*Theorem\s+(\S+)', open(f).read(), re.M))
listed = set()
for x in C:
    for t in x['theorems']:
        assert t in names, ('unknown theorem', t)
        listed.add(t)
for t in sorted(names - listed):
    print('theorem not listed:', t)
props = [json.loads(l)['id'] for l in open(os.path.join(here, '..', 'properties.jsonl'))]
have = {x['property'] for x in C}
for p in props:
    if p not in have:
        print('no claim for', p)
json.dump({'claims': C}, open(os.path.join(here, '..', 'MANIFEST.json'), 'w'), indent=1)
print(len(C), 'claims')

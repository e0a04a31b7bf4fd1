#!/usr/bin/env python3
"""Generates /verif/properties.jsonl (one JSON object per line)."""
import json, os
P = []
def p(id, title, statement, quantifier, why, anchors):
    P.append(dict(id=id, title=title, statement=statement, quantifier=quantifier,
                  why_tests_cant=why, anchors=anchors))

exec(open(os.path.join(os.path.dirname(__file__), 'props_src.py')).read())

ids = [x['id'] for x in P]
assert len(ids) == len(set(ids))
with open(os.path.join(os.path.dirname(__file__), '..', 'properties.jsonl'), 'w') as f:
    for x in P:
        f.write(json.dumps(x) + '\n')
print(len(P))

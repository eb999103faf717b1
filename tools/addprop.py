#!/usr/bin/env python3
"""Append properties (JSON objects on stdin, one per line) to properties.jsonl,
replacing any with the same id."""
import json, sys, os
root = os.path.dirname(os.path.dirname(os.path.abspath(__file__)))
p = root + '/properties.jsonl'
props = [json.loads(l) for l in open(p)]
new = [json.loads(l) for l in sys.stdin if l.strip()]
for n in new:
    assert set(n) == {'id', 'title', 'statement', 'quantifier', 'why_tests_cant', 'anchors'}, n
    props = [q for q in props if q['id'] != n['id']] + [n]
props.sort(key=lambda q: int(q['id'][1:]))
open(p, 'w').write(''.join(json.dumps(q) + '\n' for q in props))

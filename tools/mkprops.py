#!/usr/bin/env python3
"""Writes properties.jsonl from the table below (kept as Python so that long texts stay readable)."""
import json, sys, os
P = []
def p(id, title, statement, quantifier, why, anchors):
    P.append(dict(id=id, title=title, statement=statement, quantifier=quantifier, why_tests_cant=why, anchors=anchors))

exec(open(os.path.join(os.path.dirname(__file__), "props.txt")).read())
out = os.path.join(os.path.dirname(__file__), "..", "properties.jsonl")
with open(out, "w") as f:
    for x in P:
        f.write(json.dumps(x, ensure_ascii=False) + "\n")
print(len(P), "properties")

#!/usr/bin/env python3
"""Fills the table of DESIGN.md between the marks from design_rows.txt, MANIFEST.json and properties.jsonl."""
import json, os, re, glob
root = os.path.join(os.path.dirname(os.path.abspath(__file__)), "..")
P = {}
for l in open(root + "/properties.jsonl"):
    p = json.loads(l); P[p["id"]] = p
M = {c["property"]: c for c in json.load(open(root + "/MANIFEST.json"))["claims"]}
rows = {}
for l in open(root + "/tools/design_rows.txt"):
    if l.strip():
        a, b, c = [x.strip() for x in l.split(" | ")]
        rows[a] = (b, c)
where = {}
for f in glob.glob(root + "/rocq/theories/Prop_*.v"):
    for n in re.findall(r"^Theorem (\w+)", open(f).read(), re.M): where[n] = os.path.basename(f)
out = ["| id | property | modelled by | proved how | status | theorems |", "|---|---|---|---|---|---|"]
for i in sorted(P):
    c = M.get(i)
    th = "; ".join("%s: %s" % (f, ", ".join(t for t in c["theorems"] if where.get(t) == f)) for f in sorted({where.get(t, "?") for t in c["theorems"]})) if c else "-"
    b, m = rows.get(i, ("?", "?"))
    out.append("| %s | %s | %s | %s | %s | %s |" % (i, P[i]["title"], b, m, c["status"] if c else "-", th))
    if i not in rows: print("no row for", i)
d = open(root + "/DESIGN.md").read()
a, rest = d.split("<!-- table -->\n", 1)
_, z = rest.split("<!-- end table -->", 1)
open(root + "/DESIGN.md", "w").write(a + "<!-- table -->\n" + "\n".join(out) + "\n<!-- end table -->" + z)

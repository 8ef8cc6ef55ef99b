#!/usr/bin/env python3
"""Writes MANIFEST.json: the theorems of the Prop_*.v files grouped by property; status and notes from status.txt."""
import re, os, json
root = os.path.join(os.path.dirname(os.path.abspath(__file__)), "..")
d = os.path.join(root, "rocq", "theories")
th = {}
for f in sorted(os.listdir(d)):
    if f.startswith("Prop_") and f.endswith(".v"):
        for n in re.findall(r"^Theorem (\w+)", open(os.path.join(d, f)).read(), re.M):
            th.setdefault(n.split("_")[0], []).append(n)
st = {}
for l in open(os.path.join(root, "tools", "status.txt")):
    l = l.strip()
    if l and not l.startswith("#"):
        i, s, note = [x.strip() for x in l.split("|", 2)]
        st[i] = (s, note)
props = [json.loads(l)["id"] for l in open(os.path.join(root, "properties.jsonl"))]
claims = []
for p in props:
    if p not in th: 
        print("no theorem for", p); continue
    s, note = st.get(p, ("proved", ""))
    claims.append(dict(property=p, status=s, theorems=th[p], note=note))
for k in th:
    if k not in props: print("theorem for unknown property", k)
json.dump({"claims": claims}, open(os.path.join(root, "MANIFEST.json"), "w"), indent=1, ensure_ascii=False)
print(len(claims), "claims", sum(len(c["theorems"]) for c in claims), "theorems")

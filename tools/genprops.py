#!/usr/bin/env python3
"""Generates rocq/theories/Prop_*.v from the marked lemmas of the proof files.

Marks in a proof file:
  (*@file Prop_X.v            start of the marked part; the rest of the comment is the header (imports)
  ... *)
  (*@prop doc text *)         the next 'Lemma l_NAME : STATEMENT.' becomes Theorem NAME
  (*@ex raw Coq text *)       copied as it is (non vacuity examples)
  (*@exl doc text *)          the next 'Lemma x_NAME : STATEMENT.' becomes Example NAME
"""
import re, os, sys
d = os.path.join(os.path.dirname(os.path.abspath(__file__)), "..", "rocq", "theories")
out = {}
for f in sorted(os.listdir(d)):
    if not f.endswith(".v") or f.startswith("Prop_"): continue
    s = open(os.path.join(d, f)).read()
    if "(*@file" not in s: continue
    cur = None
    for m in re.finditer(r"\(\*@(file|prop|exl|ex)\b(.*?)@\*\)", s, re.S):
        kind, txt = m.group(1), m.group(2)
        if kind == "file":
            name, _, rest = txt.strip().partition("\n")
            cur = name.strip()
            mod = f[:-2]
            out[cur] = ["(** * %s : property theorems (generated by tools/genprops.py from %s).\n    Every proof is the lemma of the same name in %s. *)\n%s\nFrom Verif Require Import %s.\n" % (cur, f, f, rest, mod)]
        elif kind == "prop":
            r = re.compile(r"\s*Lemma l_(\w+)(.*?)\nProof\.", re.S)
            mm = r.match(s, m.end())
            if not mm: sys.exit("no lemma after mark in %s: %s" % (f, txt))
            nm, st = mm.group(1), mm.group(2)
            doc = txt.strip()
            out[cur].append("(** %s *)\nTheorem %s%s\nProof. exact l_%s. Qed.\nPrint Assumptions %s.\n" % (doc, nm, st.rstrip(), nm, nm))
        elif kind == "exl":
            mm = re.compile(r"\s*Lemma x_(\w+)(.*?)\nProof\.", re.S).match(s, m.end())
            if not mm: sys.exit("no lemma after mark in %s: %s" % (f, txt))
            nm, st = mm.group(1), mm.group(2)
            out[cur].append("(** %s *)\nExample %s%s\nProof. exact x_%s. Qed.\n" % (txt.strip(), nm, st.rstrip(), nm))
        else:
            out[cur].append(txt.strip("\n") + "\n")
for k, v in out.items():
    new = "\n".join(v)
    path = os.path.join(d, k)
    if not os.path.exists(path) or open(path).read() != new:
        open(path, "w").write(new)
    print(k, sum(1 for x in v if "\nTheorem " in x))

#!/usr/bin/env python3
"""Tests the theorems against wrong programs.  Usage: mutate.py FILE [name ...]
FILE is Python text defining MUTANTS, a list of dicts with keys
  name, file, definition, old, new, claim
Every mutant is applied to a scratch copy of rocq/, which is rebuilt.  A lemma
whose proof fails is admitted (in the scratch copy only) and the build goes on,
so that in the end Print Assumptions tells which property theorems depend on a
failed proof.  Prints one JSON line per mutant."""
import sys, os, re, json, subprocess, shutil
here = os.path.dirname(os.path.abspath(__file__))
src = os.environ.get("MUTSRC", os.path.join(here, "..", "rocq"))
work = os.environ.get("MUTDIR", "/tmp/mut/work")
ns = {}
exec(open(sys.argv[1]).read(), ns)
want = set(sys.argv[2:])
def lemma_at(lines, n):
    i = n
    while i >= 0 and not re.match(r"\s*(Lemma|Theorem|Example|Definition|Corollary|Fixpoint|Instance|#\[)", lines[i]): i -= 1
    m = re.match(r"\s*(?:#\[[^\]]*\]\s*)?(?:Lemma|Theorem|Example|Definition|Corollary|Fixpoint|Instance)\s+(\w+)", lines[i]) if i >= 0 else None
    return i, (m.group(1) if m else "?")
def build():
    """returns the first error (file, line, text) of each failing file"""
    p = subprocess.run(["make", "-k", "-j3", "COQC=timeout 200 coqc"], cwd=work, stdout=subprocess.PIPE, stderr=subprocess.STDOUT, text=True,
                       env=dict(os.environ, COQEXTRAFLAGS=""))
    errs = {}
    for m in re.finditer(r'File "\./(theories/\w+\.v)", line (\d+), characters [^\n]*\n((?:.*\n){1,4})', p.stdout):
        if "Error" in m.group(3) and m.group(1) not in errs: errs[m.group(1)] = (int(m.group(2)), m.group(3))
    killed = re.findall(r"\[Makefile:\d+: (theories/\w+)\.vo\] (?:Error 1[23]\d|Killed|Terminated)", p.stdout)
    return errs, killed, p.stdout
for mu in ns["MUTANTS"]:
    if want and mu["name"] not in want: continue
    shutil.rmtree(work, ignore_errors=True)
    subprocess.run(["cp", "-a", src, work], check=True)
    f = os.path.join(work, "theories", mu["file"])
    s = open(f).read()
    if s.count(mu["old"]) != 1:
        print(json.dumps({"name": mu["name"], "problem": "old text occurs %d times" % s.count(mu["old"])})); continue
    open(f, "w").write(s.replace(mu["old"], mu["new"]))
    failed, problem = [], None
    for rnd in range(60):
        errs, killed, out = build()
        if not errs and not killed: break
        if killed and not errs: problem = "killed " + str(killed); break
        for fn, (ln, txt) in errs.items():
            p = os.path.join(work, fn); lines = open(p).read().split("\n")
            i, name = lemma_at(lines, ln - 1)
            # admit: from the first 'Proof' at or after i to the closing Qed/Defined
            j = i
            while j < len(lines) and not re.search(r"\bProof\b", lines[j]): j += 1
            k = j
            while k < len(lines) and not re.search(r"\b(Qed|Defined)\.", lines[k]): k += 1
            if k >= len(lines) or ln - 1 > k or ln - 1 < j: problem = "%s:%d %s" % (fn, ln, txt.strip()[:200]); break
            head = lines[j][:re.search(r"\bProof\b", lines[j]).start()]
            lines[j:k+1] = [head + "Admitted."] + [""] * (k - j)
            open(p, "w").write("\n".join(lines))
            failed.append(os.path.basename(fn)[:-2] + "." + name)
        if problem: break
    thms = []
    if not problem:
        for fn in sorted(os.listdir(os.path.join(work, "theories"))):
            if not (fn.startswith("Prop_") and fn.endswith(".v")): continue
            vo = os.path.join("theories", fn + "o")   # a file that was not rebuilt does not depend on the edit
            if os.path.exists(os.path.join(src, vo)) and os.path.getmtime(os.path.join(src, vo)) == os.path.getmtime(os.path.join(work, vo)): continue
            t = open(os.path.join(work, "theories", fn)).read()
            names = re.findall(r"^Print Assumptions (\w+)\.", t, re.M)
            q = "From Verif Require Import %s.\n" % fn[:-2] + "".join('Goal True. idtac "@@%s". Abort.\nPrint Assumptions %s.\n' % (x, x) for x in names)
            qf = os.path.join(work, "q.v"); open(qf, "w").write(q)
            o = subprocess.run(["coqc", "-Q", "theories", "Verif", "q.v"], cwd=work, stdout=subprocess.PIPE, stderr=subprocess.STDOUT, text=True).stdout
            for part in o.split("@@")[1:]:
                nm, _, rest = part.partition("\n")
                if "Closed under" not in rest: thms.append(nm.strip())
            if "Error" in o: problem = o[-300:]
    print(json.dumps({"name": mu["name"], "definition": mu["definition"], "edit": mu["old"] + "  ==>  " + mu["new"], "claim": mu["claim"],
                      "failed_proofs": failed, "theorems_failed": thms, "problem": problem}), flush=True)

#!/usr/bin/env python3
"""Rewrites section 8 of DESIGN.md: the theorems of MANIFEST.json with what Print Assumptions lists.
Run after `make` in rocq/."""
import json, os, re, subprocess, tempfile
root = os.path.join(os.path.dirname(os.path.abspath(__file__)), "..")
names = [t for c in json.load(open(os.path.join(root, "MANIFEST.json")))["claims"] for t in c["theorems"]]
props = sorted(f[:-2] for f in os.listdir(os.path.join(root, "rocq/theories")) if re.match(r"Properties\w*\.v$", f))
with tempfile.TemporaryDirectory() as d:
    open(os.path.join(d, "A.v"), "w").write("From Verif Require Import %s.\n" % " ".join(props) + "".join("Print Assumptions %s.\n" % n for n in names))
    out = subprocess.run(["coqc", "-Q", os.path.join(root, "rocq/theories"), "Verif", os.path.join(d, "A.v")], capture_output=True, text=True, check=True).stdout
res = re.findall(r"^(Closed under the global context|Axioms:(?:\n.*?)*?)(?=\n(?:Closed|Axioms)|\Z)", out.strip(), re.M)
assert len(res) == len(names)
path = os.path.join(root, "DESIGN.md")
s = open(path).read()
mark = "## 8. Theorems and their assumptions\n"
s = s[:s.index(mark) + len(mark)] + "\n%d theorems.\n\n| theorem | Print Assumptions |\n|---|---|\n" % len(names)
for n, r in zip(names, res): s += "| `%s` | %s |\n" % (n, "closed" if r.startswith("Closed") else r.replace("\n", " "))
open(path, "w").write(s)

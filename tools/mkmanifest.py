#!/usr/bin/env python3
"""Build MANIFEST.json: collect theorems named Cnn_* from the Coq sources.
Status and notes come from the table below."""
import json, re, glob, os
root = os.path.join(os.path.dirname(__file__), "..")
thms = {}
proj = open(f"{root}/rocq/_CoqProject").read()
for f in sorted(glob.glob(f"{root}/rocq/theories/*.v")):
    if os.path.basename(f) not in proj:
        continue
    for m in re.finditer(r"^Theorem (C\d+)_(\w+)", open(f).read(), re.M):
        thms.setdefault(m.group(1), []).append(f"{m.group(1)}_{m.group(2)}")
notes = json.load(open(f"{root}/tools/notes.json"))
claims = []
for line in open(f"{root}/properties.jsonl"):
    p = json.loads(line)["id"]
    st, note = notes.get(p, ["partial", "not yet proved"])
    claims.append({"property": p, "status": st, "theorems": thms.get(p, []), "note": note})
json.dump({"claims": claims}, open(f"{root}/MANIFEST.json", "w"), indent=1)
for c in claims:
    if not c["theorems"]:
        print("no theorem:", c["property"], c["status"])

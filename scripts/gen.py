#!/usr/bin/env python3
"""Regenerate rocq/_CoqProject (file list) and MANIFEST.json from the theories and scripts/notes.json."""
import glob, json, os, re
root = os.path.dirname(os.path.dirname(os.path.abspath(__file__)))
vs = sorted(os.path.basename(f) for f in glob.glob(root + "/rocq/theories/*.v"))
open(root + "/rocq/_CoqProject", "w").write("-Q theories Verif\n" + "".join(f"theories/{f}\n" for f in vs))
notes = json.load(open(root + "/scripts/notes.json"))
thms = {}
for f in vs:
    if f.startswith("Properties"):
        for m in re.finditer(r"^Theorem\s+((C\d+)_[\w']+)", open(f"{root}/rocq/theories/{f}").read(), re.M):
            thms.setdefault(m[2], []).append(m[1])
ids = [json.loads(l)["id"] for l in open(root + "/properties.jsonl")]
claims = []
for i in ids:
    n = notes.get(i, {})
    if i in thms:
        claims.append({"property": i, "status": n.get("status", "proved"), "theorems": thms[i], "note": n.get("note", "")})
    elif n.get("status") == "not_applicable":
        claims.append({"property": i, "status": "not_applicable", "theorems": [], "note": n["note"]})
    else:
        print("no theorem yet:", i)
json.dump({"claims": claims}, open(root + "/MANIFEST.json", "w"), indent=1)
print(len(claims), "claims", sum(len(c["theorems"]) for c in claims), "theorems")

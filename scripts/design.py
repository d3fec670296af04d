#!/usr/bin/env python3
"""Assemble DESIGN.md from design_head.md, the properties, MANIFEST.json and the theories."""
import json, os, re, glob
root = os.path.dirname(os.path.dirname(os.path.abspath(__file__)))
P = [json.loads(l) for l in open(root + "/properties.jsonl")]
M = {c["property"]: c for c in json.load(open(root + "/MANIFEST.json"))["claims"]}
how = json.load(open(root + "/scripts/how.json"))
where = {}
models = {}
for f in sorted(glob.glob(root + "/rocq/theories/Properties*.v")):
    s = open(f).read()
    ms = []
    for l in re.findall(r"From Verif Require Import ([^.]*)\.", s): ms += [m for m in l.split() if m.startswith("M_")]
    for i in set(re.findall(r"^Theorem\s+(C\d+)_", s, re.M)):
        where.setdefault(i, []).append(os.path.basename(f)); 
with open(root + "/DESIGN.md", "w") as o:
    o.write(open(root + "/scripts/design_head.md").read())
    o.write("\n| id | property | status | theorems in | modelled and how proved |\n|---|---|---|---|---|\n")
    for p in P:
        i = p["id"]; c = M.get(i, {})
        h = next((v for k, v in how.items() if i in k.split()), "")
        n = c.get("note", "").replace("|", "/").replace("\n", " ")
        o.write(f"| {i} | {p['title']} | {c.get('status','-')} ({len(c.get('theorems',[]))}) | {', '.join(where.get(i,[]))} | {h}{'. ' + n if n else ''} |\n")
    o.write(open(root + "/scripts/design_tail.md").read())

#!/usr/bin/env python3
"""Write ASSUMPTIONS.md: what Print Assumptions lists for every theorem of MANIFEST.json (needs a built tree)."""
import json, os, re, subprocess, tempfile, glob
root = os.path.dirname(os.path.dirname(os.path.abspath(__file__)))
names = {}
for f in sorted(glob.glob(root + "/rocq/theories/Properties*.v")):
    mod = os.path.basename(f)[:-2]
    for m in re.finditer(r"^Theorem\s+(C\d+_[\w']+)", open(f).read(), re.M): names[m[1]] = mod
out = {}
for mod in sorted(set(names.values())):
    ts = [t for t in names if names[t] == mod]
    with tempfile.TemporaryDirectory() as d:
        p = d + "/a.v"
        open(p, "w").write(f"From Verif Require {mod}.\n" + "".join(f'Goal True. idtac "@@{t}". exact I. Qed.\nPrint Assumptions Verif.{mod}.{t}.\n' for t in ts))
        s = subprocess.run(["coqc", "-Q", root + "/rocq/theories", "Verif", p], capture_output=True, text=True)
        assert s.returncode == 0, s.stderr
        for chunk in s.stdout.split("@@")[1:]:
            t, _, body = chunk.partition("\n")
            if "Closed under" in body: out[t] = ()
            else: out[t] = tuple(sorted(set(re.findall(r"^([A-Za-z_][\w.']*)\s*(?::|$)", body, re.M)) - {"Axioms"}))
groups = {}
for t in names: groups.setdefault(out[t], []).append(t)
with open(root + "/ASSUMPTIONS.md", "w") as f:
    f.write("# What Print Assumptions lists\n\nGenerated by scripts/assumptions.py from the built theories, one section per set of axioms.\nAll axioms are the standard library's.\n")
    for g in sorted(groups, key=len):
        f.write("\n## " + ("Closed under the global context" if not g else ", ".join(f"`{a}`" for a in g)) + f" ({len(groups[g])} theorems)\n\n")
        f.write(", ".join(sorted(groups[g])) + "\n")
for g in groups: print(len(groups[g]), g)

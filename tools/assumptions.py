#!/usr/bin/env python3
"""Write ASSUMPTIONS.md: what Print Assumptions says about each theorem of MANIFEST.json.

Run after building in rocq/: python3 tools/assumptions.py
"""
import json, os, re, subprocess, tempfile

root = os.path.dirname(os.path.dirname(os.path.abspath(__file__)))
theories = os.path.join(root, "rocq", "theories")
where = {}
for f in sorted(os.listdir(theories)):
    if f.startswith("Prop") and f.endswith(".v"):
        for name in re.findall(r"^Theorem ([\w']+)", open(os.path.join(theories, f)).read(), re.M):
            where[name] = f[:-2]
names = []
for claim in json.load(open(os.path.join(root, "MANIFEST.json")))["claims"]:
    names += [n for n in claim["theorems"] if n not in names]
groups = {}
for module in sorted(set(where[n] for n in names)):
    mine = [n for n in names if where[n] == module]
    with tempfile.TemporaryDirectory() as d:
        path = os.path.join(d, "Query.v")
        with open(path, "w") as q:
            q.write("From Verif Require %s.\n" % module)
            for n in mine:
                q.write("Print Assumptions %s.%s.\n" % (module, n))
        out = subprocess.run(["coqc", "-Q", theories, "Verif", path], capture_output=True, text=True, check=True).stdout
    for n, chunk in zip(mine, re.split(r"^(?=Axioms:|Closed under)", out, flags=re.M)[1:]):
        axioms = tuple(sorted(set(re.findall(r"^([A-Za-z][\w.']*)(?= ?:|$)", chunk.replace("Axioms:\n", ""), re.M))))
        if chunk.startswith("Closed"):
            axioms = ()
        groups.setdefault(axioms, []).append((module, n))
with open(os.path.join(root, "ASSUMPTIONS.md"), "w") as o:
    o.write("# Print Assumptions of the theorems in MANIFEST.json\n\nGenerated by `tools/assumptions.py`.\n")
    for axioms, thms in sorted(groups.items(), key=lambda g: (len(g[0]), g[0])):
        o.write("\n## " + ("Closed under the global context" if not axioms else "Axioms:\n\n" + "\n".join("* `%s`" % a for a in axioms)) + "\n\n")
        for module, n in thms:
            o.write("- `%s.%s`\n" % (module, n))

#!/usr/bin/env python3
"""Print, for every theorem in Props_*.v, the axioms it rests on (grouped).

Run after building rocq/.  Needs coqc on the path."""
import collections, os, re, subprocess, tempfile
root = os.path.join(os.path.dirname(os.path.abspath(__file__)), "..", "rocq", "theories")
root = os.environ.get("THEORIES", root)
theorems, modules = [], []
for name in sorted(os.listdir(root)):
    if name.startswith("Props_") and name.endswith(".v"):
        modules.append(name[:-2])
        text = open(os.path.join(root, name)).read()
        theorems += [(name[:-2], t) for t in re.findall(r"^Theorem (C\d+_\w+)", text, re.M)]
with tempfile.TemporaryDirectory() as d:
    with open(os.path.join(d, "Q.v"), "w") as f:
        f.write("From Verif Require " + " ".join(modules) + ".\n")
        for m, t in theorems:
            f.write(f"Check tt.\nPrint Assumptions {m}.{t}.\n")
    out = subprocess.run(["coqc", "-Q", root, "Verif", "Q.v"], cwd=d, capture_output=True, text=True)
chunks = out.stdout.split("tt\n     : unit\n")[1:]
assert len(chunks) == len(theorems), out.stderr
groups = collections.OrderedDict()
for (m, t), c in zip(theorems, chunks):
    ax = [x for x in re.findall(r"^([\w.]+)\s*(?::|$)", c, re.M) if x != "Axioms"]
    ax = tuple(sorted(x.split(".")[-1] for x in ax))
    groups.setdefault(ax, []).append(t)
for ax in sorted(groups, key=len):
    names = groups[ax]
    print(f"\n{', '.join(ax) if ax else 'no axioms'} ({len(names)} theorems):\n")
    print(", ".join(sorted(names)))

#!/usr/bin/env python3
"""Write ASSUMPTIONS.md: what Print Assumptions lists for every property theorem.
Run after a build."""
import glob, os, re, subprocess, tempfile

root = os.path.dirname(os.path.dirname(os.path.abspath(__file__)))
rocq = os.path.join(root, "rocq")
thms, mods = [], []
for p in sorted(glob.glob(os.path.join(rocq, "theories/P*.v"))):
    ns = re.findall(r"^Theorem (C\d+_\w+)", open(p).read(), re.M)
    if ns:
        mods.append(os.path.basename(p)[:-2])
    thms += ns
with tempfile.TemporaryDirectory() as d:
    f = os.path.join(d, "chk.v")
    with open(f, "w") as h:
        h.write("From Verif Require Import %s.\n" % " ".join(mods))
        for n in thms:
            h.write('Goal True. idtac "THM %s". Abort.\nPrint Assumptions %s.\n' % (n, n))
    out = subprocess.run(["coqc", "-Q", "theories", "Verif", f], cwd=rocq, capture_output=True, text=True, check=True).stdout
groups = {}
for part in out.split("THM ")[1:]:
    name = part.split("\n")[0].strip()
    axioms = re.findall(r"^([\w.']+)\s*(?::|$)", part, re.M)
    ax = tuple(sorted(set(x for x in axioms if x not in (name, "Axioms", "Closed"))))
    groups.setdefault(ax, []).append(name)
with open(os.path.join(root, "ASSUMPTIONS.md"), "w") as h:
    h.write("# Print Assumptions of every property theorem\n\nWritten by tools/assumptions.py.\n")
    for ax, ns in sorted(groups.items()):
        h.write("\n## %s\n\n" % (", ".join("`%s`" % a for a in ax) if ax else "Closed under the global context"))
        for n in sorted(ns):
            h.write("* %s\n" % n)
print({ax: len(ns) for ax, ns in groups.items()})

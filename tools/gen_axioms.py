#!/usr/bin/env python3
"""Print, for every theorem of the Props files, the axioms Print Assumptions lists (run in a built tree).
The result replaces the section of DESIGN.md between the two markers."""
import glob, os, re, subprocess, sys, tempfile

root = os.path.dirname(os.path.dirname(os.path.abspath(__file__)))
theories = os.path.join(root, "rocq", "theories")
names, mods = [], []
for f in sorted(glob.glob(os.path.join(theories, "Props_*.v"))):
    mod = os.path.basename(f)[:-2]
    mods.append(mod)
    names += [(mod, n) for n in re.findall(r"^Theorem (\w+)", open(f).read(), re.M)]
script = "From Verif Require %s.\n" % " ".join(mods)
for mod, n in names:
    script += 'Check 0.\nPrint Assumptions %s.%s.\n' % (mod, n)
with tempfile.TemporaryDirectory() as tmp:
    v = os.path.join(tmp, "Axioms.v")
    open(v, "w").write(script)
    out = subprocess.run(["coqc", "-Q", theories, "Verif", v], capture_output=True, text=True, check=True).stdout
chunks = re.split(r"^0\n     : nat\n", out, flags=re.M)[1:]
assert len(chunks) == len(names)
groups = {}
for (mod, n), c in zip(names, chunks):
    ax = tuple(sorted(a.split(".")[-1] for a in re.findall(r"^([A-Za-z][\w.]*)(?: :.*)?$", c, re.M) if a not in ("Axioms",) and not a.startswith("Closed")))
    groups.setdefault(ax, []).append(n)
lines = []
for ax in sorted(groups, key=lambda a: (len(a), a)):
    lines.append("* %s: %s." % (", ".join("`%s`" % a for a in ax) if ax else "none (\"Closed under the global context\")",
                               ", ".join(sorted(groups[ax]))))
text = "\n".join(lines)
path = os.path.join(root, "DESIGN.md")
s = open(path).read()
b, e = "<!-- axioms -->\n", "<!-- end axioms -->\n"
i, j = s.index(b) + len(b), s.index(e)
open(path, "w").write(s[:i] + text + "\n" + s[j:])
print(len(names), "theorems,", len(groups), "groups")
for ax in groups:
    print(ax, len(groups[ax]))

#!/usr/bin/env python3
"""Collect what Print Assumptions says for every property theorem and put it between the markers in DESIGN.md.
Needs a finished build in rocq/."""
import glob, os, re, subprocess, tempfile

here = os.path.dirname(os.path.abspath(__file__))
rocq = os.path.join(here, "..", "rocq")
groups = {}
for path in sorted(glob.glob(os.path.join(rocq, "theories", "Properties", "*.v"))):
    src = open(path).read()
    names = re.findall(r"^Print Assumptions (\w+)\.", src, re.M)
    stated = re.findall(r"^Theorem (\w+)", src, re.M)
    missing = [n for n in stated if n not in names]
    if missing:
        print("no Print Assumptions for", missing)
    out = os.path.join(tempfile.gettempdir(), os.path.basename(path) + "o")
    r = subprocess.run(["coqc", "-Q", "theories", "Verif", path, "-o", out], cwd=rocq, capture_output=True, text=True)
    if r.returncode:
        raise SystemExit(r.stderr)
    answers = re.split(r"^(?=Closed under the global context|Axioms:)", r.stdout, flags=re.M)[1:]
    if len(answers) != len(names):
        raise SystemExit("%s: %d theorems, %d answers" % (path, len(names), len(answers)))
    for n, a in zip(names, answers):
        axioms = tuple(sorted(re.findall(r"^([A-Z]\w*(?:\.\w+)+)", a, re.M)))
        groups.setdefault(axioms, []).append(n)

lines = []
for axioms in sorted(groups, key=len):
    names = sorted(groups[axioms])
    if axioms:
        lines.append("**%d theorems use** %s:" % (len(names), ", ".join("`%s`" % a for a in axioms)))
    else:
        lines.append("**%d theorems are closed under the global context** (no axioms):" % len(names))
    lines.append("")
    lines.append(", ".join(names) + ".")
    lines.append("")
design = os.path.join(here, "..", "DESIGN.md")
s = open(design).read()
a, b = "<!-- assumptions begin -->", "<!-- assumptions end -->"
i, j = s.index(a) + len(a), s.index(b)
open(design, "w").write(s[:i] + "\n" + "\n".join(lines) + s[j:])
print({k: len(v) for k, v in groups.items()})

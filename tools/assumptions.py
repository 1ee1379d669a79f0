#!/usr/bin/env python3
"""Print what Print Assumptions lists for every property theorem (needs a built tree)."""
import os, re, subprocess, sys, tempfile, collections
T = os.path.join(os.path.dirname(os.path.dirname(os.path.abspath(__file__))), "rocq", "theories")
tmp = tempfile.mkdtemp()
groups = collections.OrderedDict()
for f in sorted(x for x in os.listdir(T) if x.startswith("Props") and x.endswith(".v")):
    names = re.findall(r"^Print Assumptions (\w+)\.", open(os.path.join(T, f)).read(), re.M)
    out = subprocess.run(["coqc", "-q", "-Q", ".", "Verif", "-o", os.path.join(tmp, f[:-2] + ".vo"), f], cwd=T,
                         capture_output=True, text=True).stdout
    blocks = re.split(r"(?m)^(?=Closed under the global context|Axioms:)", out)[1:]
    assert len(blocks) == len(names), f
    for n, b in zip(names, blocks):
        ax = tuple(sorted(x.split(".")[-1] for x in re.findall(r"(?m)^([\w.']+)\s*:", b) if x != "Axioms"))
        groups.setdefault(ax, {}).setdefault(f[:-2], []).append(n)
for ax, d in groups.items():
    print("## " + (", ".join(ax) if ax else "closed under the global context"))
    for f, ns in d.items():
        print("* `%s` (%d): %s" % (f, len(ns), ", ".join(ns)))

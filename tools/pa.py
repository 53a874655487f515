#!/usr/bin/env python3
"""Appends a Print Assumptions line for every property theorem that has none in its own file."""
import re, glob, os
root = os.path.dirname(os.path.dirname(os.path.abspath(__file__)))
for f in sorted(glob.glob(root + "/rocq/theories/*_props.v")):
    s = open(f).read()
    names = re.findall(r"^(?:Theorem|Corollary)\s+(C\d\d\d?_\w+)", s, re.M)
    missing = [n for n in names if "Print Assumptions %s." % n not in s]
    if missing:
        s = s.rstrip() + "\n\n" + "".join("Print Assumptions %s.\n" % n for n in missing)
        open(f, "w").write(s)
        print(os.path.basename(f), len(missing))

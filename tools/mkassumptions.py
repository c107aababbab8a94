#!/usr/bin/env python3
"""Write what Print Assumptions says of each theorem into DESIGN.md.

Reads the output of compiling the Prop_*.v files again, in a copy outside this
directory; rocq/ must be built.  The list goes between the two markers.
"""
import glob
import os
import re
import subprocess
import sys
import tempfile

root = os.path.dirname(os.path.dirname(os.path.abspath(__file__)))
theories = os.path.join(root, "rocq", "theories")
scratch = tempfile.mkdtemp()
begin, end = "<!-- assumptions -->", "<!-- end of assumptions -->"


def compile_file(path):
    out = os.path.join(scratch, os.path.basename(path)[:-2] + ".vo")
    run = subprocess.run(["coqc", "-q", "-Q", theories, "Verif", "-o", out, path], capture_output=True, text=True, cwd=scratch)
    if run.returncode:
        sys.exit(run.stderr)
    return run.stdout


rows, total, closed = [], 0, 0
for path in sorted(glob.glob(os.path.join(theories, "Prop_*.v"))):
    names = re.findall(r"^Print Assumptions (\w+)\.", open(path).read(), re.M)
    blocks = re.findall(r"^(Closed under the global context|Axioms:(?:\n(?!Closed|Axioms).*)*)", compile_file(path), re.M)
    if len(names) != len(blocks):
        sys.exit("%s: %d theorems, %d answers" % (path, len(names), len(blocks)))
    total += len(names)
    plain = [n for n, b in zip(names, blocks) if b.startswith("Closed")]
    closed += len(plain)
    rows.append("**%s** (%d theorems). Closed under the global context: %s." % (os.path.basename(path), len(names), ", ".join("`%s`" % n for n in plain)))
    for n, b in zip(names, blocks):
        if not b.startswith("Closed"):
            rows.append("* `%s`: %s" % (n, " ".join(b.split())))
text = "%d theorems, %d of them \"Closed under the global context\", that is without any axiom.\n\n" % (total, closed) + "\n\n".join(rows)
design = os.path.join(root, "DESIGN.md")
s = open(design).read()
s = s[: s.index(begin) + len(begin)] + "\n" + text + "\n" + s[s.index(end):]
open(design, "w").write(s)
print(total, closed)

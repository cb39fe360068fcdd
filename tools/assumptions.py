#!/usr/bin/env python3
"""Writes ../ASSUMPTIONS.md: what Print Assumptions says for every property theorem.
Needs a finished build in ../rocq."""
import glob, os, re, subprocess, tempfile
root = os.path.abspath(os.path.join(os.path.dirname(__file__), ".."))
th = root + "/rocq/theories"
rows = []
for f in sorted(glob.glob(th + "/Props*.v")):
    mod = os.path.basename(f)[:-2]
    names = re.findall(r"^Theorem (C\d\d\d?_\w+)", open(f).read(), re.M)
    with tempfile.TemporaryDirectory() as d:
        src = d + "/Ask.v"
        open(src, "w").write("From Verif Require %s.\n" % mod + "".join("Print Assumptions %s.%s.\n" % (mod, n) for n in names))
        out = subprocess.run(["coqc", "-Q", th, "Verif", src], capture_output=True, text=True)
        assert out.returncode == 0, out.stderr
        ans = [l for l in out.stdout.split("\n") if l]
        assert len(ans) == len(names), (mod, out.stdout)
        rows += [(n, mod, a) for n, a in zip(names, ans)]
rows.sort()
with open(root + "/ASSUMPTIONS.md", "w") as o:
    o.write("# Answers of Print Assumptions\n\n%d theorems.\n\n| Theorem | File | Assumptions |\n| --- | --- | --- |\n" % len(rows))
    for n, m, a in rows:
        o.write("| %s | %s.v | %s |\n" % (n, m, a))
print(len(rows), "theorems;", sum(a != "Closed under the global context" for _, _, a in rows), "not closed")

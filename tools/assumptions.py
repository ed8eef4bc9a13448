"""Groups the theorems of the manifest by what Print Assumptions lists for them.  Run after a build."""
import json, os, re, subprocess, collections
root = os.path.join(os.path.dirname(os.path.abspath(__file__)), "..")
man = json.load(open(os.path.join(root, "MANIFEST.json")))
names = [t for c in man["claims"] for t in c["theorems"]]
mods = sorted(f[:-2] for f in os.listdir(os.path.join(root, "rocq/theories/Props")) if f.endswith(".v"))
src = "From Verif.Props Require " + " ".join(mods) + ".\n"
where = {}
for m in mods:
    for t in re.findall(r"^Theorem (C\w+)", open(os.path.join(root, "rocq/theories/Props", m + ".v")).read(), re.M):
        where[t] = m
for t in names:
    src += 'Print Assumptions %s.%s.\n' % (where[t], t)
open("/tmp/Asm.v", "w").write(src)
out = subprocess.run(["coqc", "-Q", os.path.join(root, "rocq/theories"), "Verif", "/tmp/Asm.v"], capture_output=True, text=True)
blocks = re.split(r"^(?=Closed under|Axioms:)", out.stdout, flags=re.M)
blocks = [b for b in blocks if b.strip()]
assert len(blocks) == len(names), (len(blocks), len(names), out.stderr[-500:])
groups = collections.OrderedDict()
for t, b in zip(names, blocks):
    ax = tuple(sorted(re.findall(r"^([\w.]+)\s*$|^([\w.]+) :", b, re.M) and [x or y for x, y in re.findall(r"^([\w.]+)\s*$|^([\w.]+) :", b, re.M)])) if b.startswith("Axioms") else ()
    groups.setdefault(ax, []).append(t)
text = "\n".join("* **%s** (%d theorems): %s" % (", ".join("`%s`" % a for a in ax) or "Closed under the global context, no axioms", len(ts), ", ".join(ts)) for ax, ts in sorted(groups.items()))
p = os.path.join(root, "DESIGN.md")
s = open(p).read()
a, b = s.index("<!-- assumptions:begin -->"), s.index("<!-- assumptions:end -->")
open(p, "w").write(s[:a] + "<!-- assumptions:begin -->\n" + text + "\n" + s[b:])

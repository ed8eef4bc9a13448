"""Writes MANIFEST.json: which theorems settle which property."""
import json, os, re, glob
here = os.path.dirname(os.path.abspath(__file__))
claims = {}

def c(pid, status, note=""):
    claims[pid] = (status, note)

exec(open(os.path.join(here, "claims.py")).read())

props = [json.loads(l)["id"] for l in open(os.path.join(here, "..", "properties.jsonl"))]
theorems = {}
for f in sorted(glob.glob(os.path.join(here, "..", "rocq", "theories", "Props", "*.v"))):
    for m in re.finditer(r"^Theorem\s+((C\d+)_\w+)", open(f).read(), re.M):
        theorems.setdefault(m.group(2), []).append(m.group(1))
out = []
for pid in props:
    if pid not in claims:
        continue
    status, note = claims[pid]
    th = theorems.get(pid, [])
    if status != "not_applicable":
        assert th, pid
    out.append({"property": pid, "status": status, "theorems": th, "note": note})
for pid in theorems:
    assert pid in claims, "no claim for " + pid
json.dump({"claims": out}, open(os.path.join(here, "..", "MANIFEST.json"), "w"), indent=1)
print(len(out), "claims,", sum(len(v) for v in theorems.values()), "theorems")

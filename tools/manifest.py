# Generates MANIFEST.json from the theorem names in rocq/theories/Properties.  Run: python3 tools/manifest.py
import json, os, re, glob
here = os.path.dirname(os.path.abspath(__file__))
root = os.path.join(here, "..")
props = [json.loads(l) for l in open(os.path.join(root, "properties.jsonl"))]
thms = {}
for f in sorted(glob.glob(os.path.join(root, "rocq/theories/Properties/*.v"))):
    for m in re.finditer(r"^Theorem\s+((C\d+)_\w+)", open(f).read(), re.M):
        thms.setdefault(m.group(2), []).append(m.group(1))
NOTES = {}
STATUS = {}
exec(open(os.path.join(here, "notes.py")).read())
claims = []
for p in props:
    i = p["id"]; t = thms.get(i, [])
    if i in STATUS: st = STATUS[i]
    elif not t: st = None
    elif any(x.endswith("_partial") or x.endswith("_refuted") for x in t): st = "partial"
    else: st = "proved"
    if st is None:
        print("no theorems yet:", i, p["title"]); continue
    claims.append(dict(property=i, status=st, theorems=t, note=NOTES.get(i, "")))
unknown = set(thms) - {p["id"] for p in props}
if unknown: print("UNKNOWN", unknown)
json.dump({"claims": claims}, open(os.path.join(root, "MANIFEST.json"), "w"), indent=1)
print(len(claims), "claims,", sum(len(c["theorems"]) for c in claims), "theorems")

"""Regenerate MANIFEST.json from properties.jsonl, the *Theorems.v files and tools/notes.json."""
import glob, json, os, re
root = os.path.dirname(os.path.dirname(os.path.abspath(__file__)))
props = [json.loads(l) for l in open(f"{root}/properties.jsonl") if l.strip()]
notes = json.load(open(f"{root}/tools/notes.json"))
thms = {}
for f in sorted(glob.glob(f"{root}/rocq/theories/*Theorems.v")):
    for name in re.findall(r"^Theorem (C\d\d\w*)", open(f).read(), re.M):
        thms.setdefault(re.match(r"C\d+", name).group(0), []).append(name)
claims = []
for p in props:
    i = p["id"]
    ts = thms.get(i, [])
    n = notes.get(i, {})
    if isinstance(n, str):
        n = {"note": n}
    status = n.get("status")
    if status is None:
        status = "proved" if ts else "partial"
    note = n.get("note", "" if ts else "Not yet modelled.")
    claims.append({"property": i, "status": status, "theorems": ts, "note": note})
json.dump({"claims": claims}, open(f"{root}/MANIFEST.json", "w"), indent=1)
print(sum(c["status"] == "proved" for c in claims), "proved;",
      [c["property"] for c in claims if c["status"] != "proved"])

"""Rebuild MANIFEST.json from the theorem names in rocq/theories/*Props*.v and tools/notes.json."""
import glob, json, os, re
root = os.path.dirname(os.path.dirname(os.path.abspath(__file__)))
thms = {}
for f in sorted(glob.glob(root + "/rocq/theories/*Props*.v")):
    mod = os.path.basename(f)[:-2]
    for m in re.finditer(r"^\s*Theorem ((C\d+)_\w+)", open(f).read(), re.M):
        thms.setdefault(m.group(2), []).append(m.group(1))
notes = json.load(open(root + "/tools/notes.json"))
claims = []
for line in open(root + "/properties.jsonl"):
    i = json.loads(line)["id"]
    n = notes.get(i, {})
    t = thms.get(i, [])
    status = n.get("status", "proved" if t else "not_applicable")
    claims.append({"property": i, "status": status, "theorems": t,
                   "note": n.get("note", "" if t else "not modelled yet")})
json.dump({"claims": claims}, open(root + "/MANIFEST.json", "w"), indent=1)
print(sum(1 for c in claims if c["theorems"]), "of", len(claims), "with theorems;",
      sum(len(c["theorems"]) for c in claims), "theorems")

"""Regenerate MANIFEST.json from the theorem names in rocq/theories/*Props.v and tools/notes.json."""
import glob, json, os, re
root = os.path.dirname(os.path.dirname(os.path.abspath(__file__)))
props = [json.loads(l) for l in open(os.path.join(root, "properties.jsonl"))]
notes = json.load(open(os.path.join(root, "tools", "notes.json")))
names = {}
for f in sorted(glob.glob(os.path.join(root, "rocq", "theories", "*Props.v"))):
    for m in re.finditer(r"^Theorem\s+((C\d+)_\w+)", open(f).read(), re.M):
        names.setdefault(m.group(2), []).append(m.group(1))
claims = []
for p in props:
    i = p["id"]
    if i not in names:
        continue
    th = names[i]
    partial = any(t.endswith(("_partial", "_refuted")) for t in th)
    note = notes.get(i, "")
    claims.append(dict(property=i, status="partial" if partial else "proved", theorems=th, note=note))
json.dump(dict(claims=claims), open(os.path.join(root, "MANIFEST.json"), "w"), indent=1)
print(len(claims), "claims;", sum(len(c["theorems"]) for c in claims), "theorems; missing:",
      [p["id"] for p in props if p["id"] not in names], "no note:", [c["property"] for c in claims if not c["note"]])

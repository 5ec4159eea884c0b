"""Regenerate MANIFEST.json from the theorem names in the Props_*.v files.
Theorem names start with the property id; notes live in tools/notes.json."""
import glob, json, os, re
root = os.path.dirname(os.path.dirname(os.path.abspath(__file__)))
props = [json.loads(l) for l in open(root + "/properties.jsonl") if l.strip()]
notes = json.load(open(root + "/tools/notes.json"))
thms = {}
for f in sorted(glob.glob(root + "/rocq/theories/Props_*.v")):
    src = open(f).read()
    for m in re.finditer(r"^Theorem (C\d+)(_\w+)", src, re.M):
        thms.setdefault(m.group(1), []).append(m.group(1) + m.group(2))
claims = []
for p in props:
    i = p["id"]
    if i not in thms:
        continue
    n = notes.get(i, {})
    st = "partial" if any(t.endswith("_partial") for t in thms[i]) else "proved"
    st = n.get("status", st)
    claims.append({"property": i, "status": st, "theorems": thms[i], "note": n.get("note", "")})
json.dump({"claims": claims}, open(root + "/MANIFEST.json", "w"), indent=1)
print(len(claims), "claims", len(props), "properties; missing:",
      [p["id"] for p in props if p["id"] not in thms])

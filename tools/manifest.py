"""Write MANIFEST.json from the theorem names in rocq/theories/Props*.v."""
import glob, json, os, re
root = os.path.dirname(os.path.dirname(os.path.abspath(__file__)))
ids = [json.loads(l)["id"] for l in open(root + "/properties.jsonl")]
thms = {i: [] for i in ids}
for f in sorted(glob.glob(root + "/rocq/theories/Props*.v")):
    for n in re.findall(r"^Theorem (C\d\d\w*)", open(f).read(), re.M):
        thms[n[:3]].append(n)
notes = json.load(open(root + "/tools/notes.json"))
claims = []
for i in ids:
    if not thms[i]:
        continue
    st = "partial" if any(n.endswith("_partial") for n in thms[i]) else "proved"
    st = notes.get(i, {}).get("status", st)
    claims.append({"property": i, "status": st, "theorems": thms[i],
                   "note": notes.get(i, {}).get("note", "")})
json.dump({"claims": claims}, open(root + "/MANIFEST.json", "w"), indent=1)
print(len(claims), "claims; missing:", [i for i in ids if not thms[i]])

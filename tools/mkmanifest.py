"""Build MANIFEST.json: theorem names are taken from rocq/theories/Prop*.v by their Cnn_ prefix,
status and notes from the table below."""
import glob, json, re, os
root = os.path.dirname(os.path.dirname(os.path.abspath(__file__)))
names = {}
for f in sorted(glob.glob(root + "/rocq/theories/Prop*.v")):
    for m in re.finditer(r"^Theorem ((C\d\d)_\w+)", open(f).read(), re.M):
        names.setdefault(m.group(2), []).append(m.group(1))
notes = json.load(open(root + "/tools/notes.json"))
claims = []
for line in open(root + "/properties.jsonl"):
    i = json.loads(line)["id"]
    st, note = notes.get(i, ["partial", "not proved yet"])
    claims.append({"property": i, "status": st, "theorems": names.get(i, []), "note": note})
json.dump({"claims": claims}, open(root + "/MANIFEST.json", "w"), indent=1)
print(len(claims), sum(len(c["theorems"]) for c in claims))

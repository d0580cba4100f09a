"""Write seeded/LOG.jsonl from the results of seed.py (default /tmp/seed/*.json), the list of
seeds (/tmp/seeds/*.json: name, edits, claim) and seeded/tightened.json (name -> theorems)."""
import glob, json, os, re
root = os.path.dirname(os.path.dirname(os.path.abspath(__file__)))
log = root + "/seeded/LOG.jsonl"
old = {}
if os.path.exists(log):
    for l in open(log):
        x = json.loads(l); old[x["seed"]] = x
def where(e):
    """file: definition that contains the edited text"""
    t = open(root + "/rocq/theories/" + e["file"]).read()
    i = t.find(e["old"])
    m = [x for x in re.finditer(r"^(?:Definition|Fixpoint|Record|Inductive) (\w+)", t, re.M) if x.start() <= max(i, 0) + len(e["old"])]
    return e["file"] + (": " + m[-1].group(1) if i >= 0 and m else "")
tight = {}
if os.path.exists(root + "/seeded/tightened.json"):
    tight = json.load(open(root + "/seeded/tightened.json"))
for f in sorted(glob.glob("/tmp/seeds/*.json")):
    for s in json.load(open(f)):
        r = "/tmp/seed/%s.json" % s["name"]
        if not os.path.exists(r): continue
        res = json.load(open(r))
        old[s["name"]] = {"seed": s["name"], "definition": [where(e) for e in s["edits"]],
            "edit": [{"old": e["old"], "new": e["new"]} for e in s["edits"]], "claim": s["claim"],
            "failed": res["failed"] + (res.get("examples") or []), "tightened": tight.get(s["name"], [])}
with open(log, "w") as f:
    for k in sorted(old): f.write(json.dumps(old[k]) + "\n")
print(len(old))

"""Writes MANIFEST.json: theorem names come from Properties_*.v by their Cxx_ prefix;
statuses and notes from tools/status.json ({"C01": ["proved", "note"], ...})."""
import json, re, glob, os
root = os.path.dirname(os.path.dirname(os.path.abspath(__file__)))
thms = {}
for f in sorted(glob.glob(root + "/rocq/theories/Properties_*.v")):
    for m in re.finditer(r"^Theorem\s+((C\d\d+)_\w+)", open(f).read(), re.M):
        thms.setdefault(m.group(2), []).append(m.group(1))
status = json.load(open(root + "/tools/status.json"))
claims = []
for line in open(root + "/properties.jsonl"):
    pid = json.loads(line)["id"]
    if pid in status:
        st, note = status[pid]
        claims.append({"property": pid, "status": st, "theorems": thms.get(pid, []), "note": note})
    elif pid in thms:
        print("no status for", pid)
json.dump({"claims": claims}, open(root + "/MANIFEST.json", "w"), indent=1)
print(len(claims), "claims")
